(* C92: a read or write without AIO moves the bytes asked for, from or to the place asked for, or fails *)
From Coq Require Import List NArith ZArith Lia Bool Arith ZifyBool ZifyN ZifyNat.
From Verif Require Import Bytes DiskLoop.
Import ListNotations.
Open Scope N_scope.

(* ---- specification ---- *)
(* file g has the first k bytes of b at p and is else as f *)
Definition written (f g : content) (p : N) (b : bytes) (k : nat) : Prop :=
  (forall i, (i < k)%nat -> g (p + N.of_nat i) = nth i b 0) /\
  (forall x, x < p \/ p + N.of_nat k <= x -> g x = f x).
(* b is what the file has from p on *)
Definition has (f : content) (p : N) (b : bytes) : Prop := forall i, (i < length b)%nat -> nth i b 0 = f (p + N.of_nat i).

Definition C92_write_statement : Prop := forall f pos offset buf ans g, offset < 2 ^ 64 ->
  do_write f pos offset buf ans = Done g 0 -> written f g offset buf (length buf).
Definition C92_ends_statement : Prop := forall f pos offset buf (ans : nat -> answer),
  exists n g rv, do_write f pos offset buf (map ans (seq 0 n)) = Done g rv.

(* ---- proofs ---- *)
Lemma placed f p b : written f (place f p b) p b (length b).
Proof.
  split.
  - intros i L. unfold place. replace ((p <=? p + N.of_nat i) && (p + N.of_nat i <? p + N.of_nat (length b))) with true by lia.
    f_equal. lia.
  - intros x O. unfold place. replace ((p <=? x) && (x <? p + N.of_nat (length b))) with false by lia. reflexivity.
Qed.

Lemma written_step f g p b n k : (n <= length b)%nat -> written (place f p (firstn n b)) g (p + N.of_nat n) (skipn n b) k ->
  written f g p b (n + k).
Proof.
  intros L (W & U). destruct (placed f p (firstn n b)) as (W0 & U0). rewrite firstn_length_le in * by exact L. split.
  - intros i Li. destruct (Nat.ltb_spec i n) as [B|B].
    + rewrite U by lia. rewrite W0 by exact B.
      rewrite <- (firstn_skipn n b) at 2. rewrite app_nth1 by (rewrite firstn_length_le; lia). reflexivity.
    + specialize (W (i - n)%nat ltac:(lia)). replace (p + N.of_nat n + N.of_nat (i - n)) with (p + N.of_nat i) in W by lia.
      rewrite W. rewrite <- (firstn_skipn n b) at 2. rewrite app_nth2 by (rewrite firstn_length_le; lia). rewrite firstn_length_le by lia. reflexivity.
  - intros x O. rewrite U by lia. apply U0. lia.
Qed.

Lemma written_none f p b : written f f p b 0.
Proof. split; [lia|reflexivity]. Qed.

Lemma write_loop_spec : forall ans f pos buf,
  (forall g, write_loop f pos buf ans = Done g 0 -> written f g pos buf (length buf)) /\
  (forall g rv, write_loop f pos buf ans = Done g rv -> exists k, (k <= length buf)%nat /\ written f g pos buf k) /\
  (forall g, write_loop f pos buf ans = Running g -> exists k, (k <= length buf)%nat /\ written f g pos buf k).
Proof.
  induction ans as [|a ans IH]; intros f pos buf; cbn [write_loop].
  { repeat split; intros; try discriminate. injection H as <-. exists 0%nat. split; [lia|apply written_none]. }
  destruct a as [k| | |].
  - set (n := Nat.min (S k) (length buf)). destruct (Nat.eqb_spec n (length buf)) as [E|E].
    + assert (FB : firstn n buf = buf) by (rewrite E; apply firstn_all). rewrite FB.
      repeat split; intros; try discriminate.
      * injection H as <-. apply (proj1 (placed f pos buf)). exact H0.
      * injection H as <-. apply (proj2 (placed f pos buf)). exact H0.
      * injection H as <- <-. exists (length buf). split; [lia|apply placed].
    + assert (Ln : (n <= length buf)%nat) by (unfold n; lia).
      destruct (IH (place f pos (firstn n buf)) (pos + N.of_nat n) (skipn n buf)) as (I1 & I2 & I3). rewrite skipn_length in *.
      split; [|split].
      * intros g H. replace (length buf) with (n + (length buf - n))%nat by lia. apply written_step; auto.
      * intros g rv H. destruct (I2 g rv H) as (j & Lj & W). exists (n + j)%nat. split; [lia|]. apply written_step; auto.
      * intros g H. destruct (I3 g H) as (j & Lj & W). exists (n + j)%nat. split; [lia|]. apply written_step; auto.
  - destruct buf as [|c buf]; [|apply IH]. repeat split; intros; try discriminate.
    + cbn [length] in H0. lia.
    + injection H as <-. reflexivity.
    + injection H as <- <-. exists 0%nat. split; [lia|apply written_none].
  - apply IH.
  - repeat split; intros; try discriminate. injection H as <- <-. exists 0%nat. split; [lia|apply written_none].
Qed.

Lemma seek_cases pos offset : offset < 2 ^ 64 - 1 ->
  (offset < 2 ^ 63 /\ lseek pos offset = (offset, offset)) \/ (fst (lseek pos offset) <> offset).
Proof. intros L. unfold lseek. destruct (N.ltb_spec offset (2 ^ 63)); [left; auto|right]. cbn [fst]. lia. Qed.

(* a write that succeeds has written everything at its place, whatever the partial transfers were *)
Theorem C92_write_partial : forall f pos offset buf ans g, offset < 2 ^ 64 - 1 ->
  do_write f pos offset buf ans = Done g 0 -> written f g offset buf (length buf).
Proof.
  intros f pos offset buf ans g L H. unfold do_write in H. destruct (seek_cases pos offset L) as [(S & E)|E].
  - rewrite E in H. rewrite N.eqb_refl in H. apply (write_loop_spec ans f offset buf). exact H.
  - destruct (lseek pos offset) as (ret, p). cbn [fst] in E. destruct (N.eqb_spec ret offset); [contradiction|discriminate].
Qed.
Print Assumptions C92_write_partial.

(* at any time, and however it ends, a beginning of the bytes has been written and nothing else *)
Theorem C92_prefix_partial : forall f pos offset buf ans g, offset < 2 ^ 64 - 1 ->
  (do_write f pos offset buf ans = Running g \/ exists rv, do_write f pos offset buf ans = Done g rv) ->
  exists k, (k <= length buf)%nat /\ written f g offset buf k.
Proof.
  intros f pos offset buf ans g L H. unfold do_write in H. destruct (seek_cases pos offset L) as [(S & E)|E].
  - rewrite E in H. rewrite N.eqb_refl in H. destruct (write_loop_spec ans f offset buf) as (_ & I2 & I3).
    destruct H as [H|(rv & H)]; eauto.
  - destruct (lseek pos offset) as (ret, p). cbn [fst] in E. destruct (N.eqb_spec ret offset); [contradiction|].
    destruct H as [H|(rv & H)]; [discriminate|]. injection H as <- <-. exists 0%nat. split; [lia|apply written_none].
Qed.
Print Assumptions C92_prefix_partial.

(* offset 2^64-1 (-1 from Python): the seek fails, this is not noticed, and the write goes to wherever the
   descriptor is, for a new one to the start of the device *)
Theorem C92_wrong_place_refuted : forall f pos buf, buf <> [] ->
  exists g, do_write f pos (2 ^ 64 - 1) buf [Moved (length buf)] = Done g 0 /\ written f g pos buf (length buf).
Proof.
  intros f pos buf NE. unfold do_write, lseek. change (2 ^ 64 - 1 <? 2 ^ 63) with false. cbv iota. rewrite N.eqb_refl. cbn [write_loop].
  replace (Nat.min (S (length buf)) (length buf)) with (length buf) by lia. rewrite Nat.eqb_refl, firstn_all.
  eexists. split; [reflexivity|apply placed].
Qed.
Print Assumptions C92_wrong_place_refuted.
Theorem C92_write_refuted : ~ C92_write_statement.
Proof.
  intros H. destruct (C92_wrong_place_refuted (fun _ => 0) 0 [7] ltac:(discriminate)) as (g & E & (W & U)).
  specialize (H (fun _ => 0) 0 (2 ^ 64 - 1) [7] _ g ltac:(reflexivity) E). destruct H as (_ & U').
  specialize (W 0%nat ltac:(cbn; lia)). specialize (U' 0 ltac:(left; reflexivity)). cbn [N.of_nat nth N.add] in W. rewrite U' in W. discriminate W.
Qed.
Print Assumptions C92_write_refuted.

(* every offset else which the kernel does not take is an error and changes nothing *)
Theorem C92_bad_offset : forall f pos offset buf ans, 2 ^ 63 <= offset -> offset <> 2 ^ 64 - 1 ->
  do_write f pos offset buf ans = Done f (-1).
Proof.
  intros f pos offset buf ans L NE. unfold do_write, lseek. destruct (N.ltb_spec offset (2 ^ 63)); [lia|].
  destruct (N.eqb_spec (2 ^ 64 - 1) offset); [congruence|reflexivity].
Qed.
Print Assumptions C92_bad_offset.

Lemma fetch_has f : forall n p, length (fetch f p n) = n /\ has f p (fetch f p n).
Proof.
  induction n as [|n IH]; intros p; [split; [reflexivity|intros i L; cbn in L; lia]|]. destruct (IH (p + 1)) as (L & H). cbn [fetch length].
  split; [lia|]. intros i Li. destruct i as [|i]; [cbn [nth]; f_equal; lia|]. cbn [nth]. cbn [length] in Li. rewrite H by lia. f_equal. lia.
Qed.

Lemma has_app f p a b : has f p a -> has f (p + N.of_nat (length a)) b -> has f p (a ++ b).
Proof.
  intros A B i L. rewrite app_length in L. destruct (Nat.ltb_spec i (length a)).
  - rewrite app_nth1 by lia. apply A. lia.
  - rewrite app_nth2 by lia. rewrite B by lia. f_equal. lia.
Qed.

Lemma read_loop_spec : forall ans f n start got pos b rv, pos = start + N.of_nat (length got) -> has f start got ->
  read_loop f pos got n ans = Done b rv ->
  has f start b /\ ((rv = 0%Z /\ length b = (length got + n)%nat) \/ rv = (-1)%Z).
Proof.
  induction ans as [|a ans IH]; intros f n start got pos b rv P G H.
  { destruct n; cbn [read_loop] in H; [|discriminate]. injection H as <- <-. split; [exact G|left; split; [reflexivity|lia]]. }
  destruct n as [|n]; [cbn [read_loop] in H; injection H as <- <-; split; [exact G|left; split; [reflexivity|lia]]|].
  cbn [read_loop] in H. destruct a as [k| | |].
  - remember (Nat.min (S k) (S n)) as m. destruct (fetch_has f m pos) as (Lf & Hf).
    eapply IH in H; [| |apply has_app; [exact G|rewrite <- P; exact Hf]]; [|rewrite app_length, Lf; lia].
    rewrite app_length, Lf in H. destruct H as (H1 & [(H2 & H3)|H2]); (split; [exact H1|]); [left; split; [exact H2|lia]|right; exact H2].
  - injection H as <- <-. split; [exact G|right; reflexivity].
  - eapply IH; eauto.
  - injection H as <- <-. split; [exact G|right; reflexivity].
Qed.

(* a read that succeeds has all the bytes of its place; one that meets the end of the device fails *)
Theorem C92_read_partial : forall f pos offset n ans b rv, offset < 2 ^ 64 - 1 ->
  do_read f pos offset n ans = Done b rv -> (rv = 0%Z /\ length b = n /\ has f offset b) \/ rv = (-1)%Z.
Proof.
  intros f pos offset n ans b rv L H. unfold do_read in H. destruct (seek_cases pos offset L) as [(S & E)|E].
  - rewrite E in H. rewrite N.eqb_refl in H. apply (read_loop_spec ans f n offset [] offset) in H; [|cbn; lia|intros i Li; cbn in Li; lia].
    destruct H as (H1 & [(H2 & H3)|H2]); [left|right; exact H2]. cbn [length] in H3. auto.
  - destruct (lseek pos offset) as (ret, p). cbn [fst] in E. destruct (N.eqb_spec ret offset); [contradiction|]. injection H as <- <-. right. reflexivity.
Qed.
Print Assumptions C92_read_partial.

Theorem C92_read_refuted : forall f pos n, exists b, do_read f pos (2 ^ 64 - 1) (S n) [Moved n] = Done b 0 /\ length b = S n /\ has f pos b.
Proof.
  intros f pos n. unfold do_read, lseek. change (2 ^ 64 - 1 <? 2 ^ 63) with false. cbv iota. rewrite N.eqb_refl. cbn [read_loop].
  rewrite Nat.min_id, Nat.sub_diag. cbn [read_loop app]. eexists. split; [reflexivity|]. apply fetch_has.
Qed.
Print Assumptions C92_read_refuted.

(* the system calls a write takes: at most one for each byte and one for each interruption or empty transfer *)
Definition wasted (a : answer) : bool := match a with Intr => true | Zero => true | _ => false end.
Theorem C92_ends_partial : forall ans f pos offset buf, (length buf + length (filter wasted ans) < length ans)%nat ->
  exists g rv, do_write f pos offset buf ans = Done g rv.
Proof.
  intros ans f pos offset buf L. unfold do_write. destruct (lseek pos offset) as (ret, p). destruct (ret =? offset); [|eauto].
  clear ret offset pos. revert f p buf L. induction ans as [|a ans IH]; intros f p buf L; [cbn in L; lia|]. cbn [write_loop].
  destruct a as [k| | |]; cbn [filter wasted length] in L.
  - remember (Nat.min (S k) (length buf)) as n. destruct (Nat.eqb_spec n (length buf)); [eauto|]. apply IH. rewrite skipn_length. lia.
  - destruct buf; [eauto|]. apply IH. lia.
  - apply IH. lia.
  - eauto.
Qed.
Print Assumptions C92_ends_partial.

(* a device that takes nothing: the write never ends, there is no time limit *)
Theorem C92_ends_refuted : ~ C92_ends_statement.
Proof.
  intros H. destruct (H (fun _ => 0) 0 0 [1] (fun _ => Zero)) as (n & g & rv & E). unfold do_write, lseek in E.
  change (0 <? 2 ^ 63) with true in E. cbv iota in E. change (0 =? 0) with true in E. cbv iota in E. revert E. generalize 0%nat at 1.
  induction n as [|n IH]; intros s E; [discriminate|]. cbn [seq map write_loop] in E. apply (IH (S s)). exact E.
Qed.
Print Assumptions C92_ends_refuted.

(* a sector: its bytes, zeros behind them, and no other sector *)
Theorem C92_sector_partial : forall f pos disk ss nr data ans g, disk + (nr + 1) * ss < 2 ^ 64 ->
  write_sector f pos disk ss nr data ans = Done g 0 ->
  (ss = 512 \/ ss = 4096) /\ N.of_nat (length data) <= ss /\
  (forall i, (i < N.to_nat ss)%nat -> g (disk + nr * ss + N.of_nat i) = nth i data 0) /\
  (forall x, x < disk + nr * ss \/ disk + (nr + 1) * ss <= x -> g x = f x).
Proof.
  intros f pos disk ss nr data ans g L H. unfold write_sector in H.
  destruct ((ss =? 4096) || (ss =? 512)) eqn:Es; [cbn [negb] in H|discriminate].
  destruct (N.ltb_spec ss (N.of_nat (length data))) as [B|B]; [discriminate|]. unfold sector_offset in H.
  rewrite N.mod_small in H by lia. apply C92_write_partial in H; [|lia]. rewrite app_length, repeat_length in H. destruct H as (W & U).
  split; [lia|]. split; [exact B|]. split.
  - intros i Li. rewrite W by lia. destruct (Nat.ltb_spec i (length data)); [rewrite app_nth1 by lia; reflexivity|].
    rewrite app_nth2 by lia. rewrite nth_repeat. symmetry. apply nth_overflow. lia.
  - intros x O. apply U. lia.
Qed.
Print Assumptions C92_sector_partial.

Theorem C92_sectors_partial : forall f pos disk ss nr cnt data ans g, disk + (nr + cnt) * ss < 2 ^ 64 -> cnt > 0 ->
  write_sectors f pos disk ss nr cnt data ans = Done g 0 ->
  N.of_nat (length data) = cnt * ss /\ written f g (disk + nr * ss) data (length data).
Proof.
  intros f pos disk ss nr cnt data ans g L C H. unfold write_sectors in H.
  destruct ((ss =? 4096) || (ss =? 512)) eqn:Es; [cbn [negb] in H|discriminate].
  destruct (N.eqb_spec (N.of_nat (length data)) (cnt * ss)) as [B|B]; [cbn [negb] in H|discriminate]. unfold sector_offset in H.
  rewrite N.mod_small in H by nia. split; [exact B|]. eapply C92_write_partial; [nia|exact H].
Qed.
Print Assumptions C92_sectors_partial.

(* what was written is read back, with any partial transfers on both sides *)
Theorem C92_round_trip_partial : forall f pos pos' disk ss nr data ans ans' g b len rv, disk + (nr + 1) * ss < 2 ^ 64 ->
  write_sector f pos disk ss nr data ans = Done g 0 -> read_sectors g pos' disk ss nr 1 len ans' = (Some b, rv) ->
  (length data <= len)%nat -> rv = 0%Z /\ firstn (length data) b = data.
Proof.
  intros f pos pos' disk ss nr data ans ans' g b len rv L H R Ll. destruct (C92_sector_partial _ _ _ _ _ _ _ _ L H) as (S & B & W & _).
  unfold read_sectors in R. destruct (negb _); [discriminate|]. unfold sector_offset in R. rewrite N.mod_small in R by lia.
  destruct (do_read _ _ _ _ _) as [c z|c] eqn:D; [|discriminate]. apply C92_read_partial in D; [|lia].
  destruct (Z.eqb_spec z 0) as [->|]; [|discriminate]. destruct D as [(_ & Lc & Hc)|D]; [|discriminate]. injection R as <- <-. split; [reflexivity|].
  rewrite Nat.mul_1_l in Lc. apply nth_ext with (d := 0) (d' := 0).
  - rewrite firstn_length, firstn_length. lia.
  - intros i Li. rewrite firstn_length, firstn_length in Li.
    assert (FN : forall k (l : bytes) j, (j < k)%nat -> nth j (firstn k l) 0 = nth j l 0).
    { induction k as [|k IH]; intros l j J; [lia|]. destruct l; [destruct j; reflexivity|]. destruct j; [reflexivity|]. cbn [firstn nth]. apply IH. lia. }
    rewrite !FN by lia. rewrite Hc by lia. apply W. lia.
Qed.
Print Assumptions C92_round_trip_partial.

(* a lease area near 2^64: its second sector is the first one of the device *)
Theorem C92_wrap_refuted : exists g, write_sector (fun _ => 0) 0 (2 ^ 64 - 512) 512 1 [7] [Moved 511] = Done g 0 /\ g 0 = 7.
Proof. eexists. split; vm_compute; reflexivity. Qed.
Print Assumptions C92_wrap_refuted.

Example C92_nonvacuous :
  (exists g, write_sector (fun _ => 9) 5 1048576 512 3 [1; 2; 3] [Moved 1; Intr; Moved 99; Zero; Moved 1000] = Done g 0 /\
     g (1048576 + 1536) = 1 /\ g (1048576 + 1538) = 3 /\ g (1048576 + 1539) = 0 /\ g (1048576 + 2048) = 9) /\
  (exists g, do_write (fun _ => 9) 5 100 [1; 2; 3] [Moved 0; Fault] = Done g (-1) /\ g 100 = 1 /\ g 101 = 9) /\
  do_read (fun x => x) 0 100 3 [Moved 0; Intr; Moved 7] = Done [100; 101; 102] 0 /\
  do_read (fun x => x) 0 100 3 [Moved 0; Zero] = Done [100] (-1).
Proof.
  repeat split; try (eexists; repeat split; vm_compute; reflexivity); vm_compute; reflexivity.
Qed.
