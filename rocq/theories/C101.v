(* C101: sanlock sets the request size of a lockspace's disk to what was configured, and to no
   more than the hardware takes. *)
From Coq Require Import List NArith ZArith Bool Lia.
From Verif Require Import Bytes ArgStr ConfFile C62 MaxSectors.
Import ListNotations.
Open Scope N_scope.

(* ---- spec ---- *)
(* what is asked for: none, the lease size, a number *)
Inductive mode := Ignore | Align | Number (kb : N).
Definition mode_of (i : inp) (m : mode) : Prop :=
  match m with
  | Ignore => ignore i = true
  | Align => ignore i = false /\ align i = true
  | Number kb => ignore i = false /\ align i = false /\ num i = Z.of_N kb /\ 0 < kb < 2 ^ 32
  end.
Definition asked (m : mode) (lease : N) : option N := match m with Ignore => None | Align => Some (lease / 1024) | Number kb => Some kb end.
(* what the hardware allows of it *)
Definition allowed (h w : N) : option N := if w <=? h then Some w else if (1024 <=? h) && (1024 <=? w) then Some 1024 else None.
(* a file with a number: its digits, with or without a newline *)
Definition holds (f : option bytes) (v : N) : Prop := exists s nl, f = Some (s ++ nl) /\ (nl = [10] \/ nl = []) /\ decimal s v /\ v < 2 ^ 31 /\ (length s < 31)%nat.
Definition written (e : eff) : option N := match e with ENone => None | EWrite v _ | EHelper v => Some v end.

(* ---- reading ---- *)
Lemma atoi_decimal : forall s v, decimal s v -> v < 2 ^ 31 -> atoi s = Z.of_N v.
Proof.
  intros s v D L. assert (E : atoll s = Z.of_N v).
  { destruct D as (NE & F & V). unfold atoll. rewrite <- (app_nil_r s), digit_first by assumption. rewrite app_nil_r, digits_value by assumption. rewrite V. unfold clamp_ll. lia. }
  unfold atoi, int_of. rewrite E. rewrite Z.mod_small; lia.
Qed.
Lemma chomp_line : forall s, chomp (s ++ [10]) = s.
Proof. intros s. unfold chomp. rewrite rev_app_distr. cbn [rev app]. change (10 =? 10) with true. cbn iota. apply rev_involutive. Qed.
Lemma chomp_digits : forall s v, decimal s v -> chomp s = s.
Proof.
  intros s v (NE & F & _). unfold chomp. destruct (rev s) as [|x r] eqn:E; [apply (f_equal (@rev N)) in E; rewrite rev_involutive in E; contradiction|].
  assert (I : In x s) by (apply in_rev; rewrite E; left; reflexivity). rewrite Forall_forall in F. specialize (F x I). cbn beta in F. destruct (N.eqb_spec x 10); [lia|reflexivity].
Qed.
Lemma holds_read : forall f v x, holds f v -> read_uint f x = Rd 0 v.
Proof.
  intros f v x (s & nl & -> & Hnl & D & L & B). assert (Len : (length (s ++ nl) < 32)%nat) by (rewrite app_length; destruct Hnl as [-> | ->]; cbn [length]; lia).
  unfold read_uint. rewrite firstn_all2 by lia. destruct (Nat.leb_spec 32 (length (s ++ nl))) as [C | _]; [lia|].
  assert (Ch : chomp (s ++ nl) = s) by (destruct Hnl as [-> | ->]; [apply chomp_line|rewrite app_nil_r; apply (chomp_digits s v D)]).
  rewrite Ch. pose proof (atoi_decimal s v D L) as E. destruct s as [|y s]; [destruct D as [D _]; contradiction|]. rewrite E. unfold u32z. rewrite Z.mod_small by lia. rewrite N2Z.id. reflexivity.
Qed.

(* ---- what is done ---- *)
(* complete: a device whose two files hold numbers *)
Theorem C101_exact : forall i m h c, st_reg i = Some false -> mode_of i m -> align_size i < 2 ^ 31 -> holds (hw i) h -> h <> 0 -> holds (cur i) c ->
  (root i = false -> helper i = true /\ sent (sends i) <> None) ->
  set_lockspace i =
  match asked m (align_size i) with None => Done ENone 0 | Some w =>
    match allowed h w with None => Done ENone 0 | Some v =>
      if c =? v then Done ENone v
      else if root i then Done (EWrite v (write_ok i)) (if write_ok i then v else 0)
      else if match sent (sends i) with Some b => b | None => false end then Done (EHelper v) v else Done ENone 0
    end
  end.
Proof.
  intros i m h c R M A H Hh C Hs. unfold set_lockspace. rewrite R.
  assert (K : forall v, set_kb i v = if c =? v then Done ENone v else if root i then Done (EWrite v (write_ok i)) (if write_ok i then v else 0)
      else if match sent (sends i) with Some b => b | None => false end then Done (EHelper v) v else Done ENone 0).
  { intros v. unfold set_kb. rewrite (holds_read _ _ 0 C). change (0 <? 0)%Z with false. cbn iota. destruct (c =? v); [reflexivity|].
    destruct (root i); [reflexivity|]. destruct (Hs eq_refl) as [-> Hn]. cbn [negb]. destruct (sent (sends i)) as [[|]|]; [reflexivity|reflexivity|contradiction]. }
  assert (G : forall w, match read_uint (hw i) 0 with Over => OverRead | Rd rv h0 =>
      if (rv <? 0)%Z || (h0 =? 0) then Done ENone 0 else if h0 <? w then if h0 <? 1024 then Done ENone 0 else if w <? 1024 then Done ENone 0 else set_kb i 1024 else set_kb i w end =
    match allowed h w with None => Done ENone 0 | Some v => if c =? v then Done ENone v else if root i then Done (EWrite v (write_ok i)) (if write_ok i then v else 0)
      else if match sent (sends i) with Some b => b | None => false end then Done (EHelper v) v else Done ENone 0 end).
  { intros w. rewrite (holds_read _ _ 0 H). change (0 <? 0)%Z with false. cbn [orb]. destruct (N.eqb_spec h 0) as [E | _]; [contradiction|]. unfold allowed.
    destruct (N.ltb_spec h w) as [L | L]; destruct (N.leb_spec w h) as [L' | L']; try lia; [|apply K].
    destruct (N.ltb_spec h 1024); destruct (N.leb_spec 1024 h); try lia; [reflexivity|]. destruct (N.ltb_spec w 1024); destruct (N.leb_spec 1024 w); try lia. cbn [andb]. apply K. }
  destruct m as [| |kb]; cbn [mode_of asked] in *.
  - rewrite M. reflexivity.
  - destruct M as [-> ->]. cbn [negb andb]. apply G.
  - destruct M as (-> & -> & E & B). cbn [negb andb]. rewrite E. destruct (Z.eqb_spec (Z.of_N kb) 0) as [X | _]; [lia|].
    assert (U : u32z (Z.of_N kb) = kb) by (unfold u32z; rewrite Z.mod_small by lia; apply N2Z.id). rewrite U. apply G.
Qed.
Print Assumptions C101_exact.

(* never more than the hardware takes, whatever the settings and files are *)
Theorem C101_bound : forall i e r v, set_lockspace i = Done e r -> written e = Some v ->
  exists x h, read_uint (hw i) 0 = Rd x h /\ v <= h /\ h <> 0.
Proof.
  intros i e r v H W. unfold set_lockspace in H. destruct (st_reg i) as [[|]|]; try (injection H as <- _; discriminate).
  destruct (ignore i); [injection H as <- _; discriminate|]. destruct (negb (align i) && (num i =? 0)%Z); [injection H as <- _; discriminate|].
  assert (K : forall x, set_kb i x = Done e r -> v = x).
  { intros x S. unfold set_kb in S. destruct (read_uint (cur i) 0); [discriminate|]. destruct (rv <? 0)%Z; [injection S as <- _; discriminate|].
    destruct (val =? x); [injection S as <- _; discriminate|]. destruct (root i); [injection S as <- _; cbn in W; congruence|].
    destruct (negb (helper i)); [injection S as <- _; discriminate|]. destruct (sent (sends i)) as [[|]|]; [injection S as <- _; cbn in W; congruence|injection S as <- _; discriminate|discriminate]. }
  set (want := if align i then align_size i / 1024 else u32z (num i)) in *. clearbody want.
  destruct (read_uint (hw i) 0) as [|rv h]; [discriminate|]. destruct ((rv <? 0)%Z || (h =? 0)) eqn:E; [injection H as <- _; discriminate|].
  apply orb_false_iff in E as [_ E]. apply N.eqb_neq in E. exists rv, h. split; [reflexivity|].
  destruct (N.ltb_spec h want).
  - destruct (N.ltb_spec h 1024); [injection H as <- _; discriminate|]. destruct (want <? 1024); [injection H as <- _; discriminate|]. apply K in H. lia.
  - apply K in H. lia.
Qed.
Print Assumptions C101_bound.

(* files and disks that are to be left alone are left alone *)
Theorem C101_untouched : forall i, st_reg i <> Some false \/ ignore i = true \/ hw i = None \/ cur i = None ->
  match set_lockspace i with Done e r => e = ENone /\ r = 0 | OverRead => hw i <> None | Stuck => False end.
Proof.
  intros i H. unfold set_lockspace. destruct (st_reg i) as [[|]|]; auto. destruct (ignore i) eqn:I; auto. destruct (negb (align i) && (num i =? 0)%Z); auto.
  destruct H as [H | [H | [H | H]]]; try congruence.
  - rewrite H. cbn. auto.
  - set (want := if align i then align_size i / 1024 else u32z (num i)). clearbody want.
    assert (K : forall v, set_kb i v = Done ENone 0) by (intros v; unfold set_kb; rewrite H; reflexivity).
    destruct (hw i) as [f|] eqn:E; [|cbn; auto]. destruct (read_uint (Some f) 0) as [|rv h]; [discriminate|]. destruct ((rv <? 0)%Z || (h =? 0)); auto.
    rewrite !K. destruct (h <? want); auto. destruct (h <? 1024); auto. destruct (want <? 1024); auto.
Qed.
Print Assumptions C101_untouched.

(* the buffer is not left by files of less than 32 bytes *)
Theorem C101_fits : forall f x, (match f with Some s => (length s < 32)%nat | None => True end) -> read_uint f x <> Over.
Proof.
  intros [f|] x H; [|discriminate]. unfold read_uint. rewrite firstn_all2 by lia. destruct (Nat.leb_spec 32 (length f)); [lia|]. destruct (chomp f); discriminate.
Qed.
Print Assumptions C101_fits.

(* files with nothing in them: a limit that is not known, a value that has to be set *)
Theorem C101_empty : forall i, (hw i = Some [] \/ hw i = Some [10] -> set_lockspace i = Done ENone 0) /\
  forall v, (cur i = Some [] \/ cur i = Some [10]) -> v <> 0 -> root i = true -> set_kb i v = Done (EWrite v (write_ok i)) (if write_ok i then v else 0).
Proof.
  intros i. split.
  - intros H. unfold set_lockspace. destruct (st_reg i) as [[|]|]; auto. destruct (ignore i); auto. destruct (negb (align i) && (num i =? 0)%Z); auto.
    destruct H as [-> | ->]; reflexivity.
  - intros v H N R. unfold set_kb. assert (E : exists k, read_uint (cur i) 0 = Rd k 0 /\ (0 <= k)%Z) by (destruct H as [-> | ->]; eexists; split; try reflexivity; cbn; lia).
    destruct E as (k & -> & K). destruct (Z.ltb_spec k 0); [lia|]. destruct (N.eqb_spec 0 v); [congruence|]. rewrite R. reflexivity.
Qed.
Print Assumptions C101_empty.

(* with the default setting a disk that can gets 1024; by lease size a lease is one request *)
Theorem C101_default : forall i h c, st_reg i = Some false -> mode_of i (Number 1024) -> align_size i < 2 ^ 31 -> holds (hw i) h -> 1024 <= h -> holds (cur i) c -> root i = true -> write_ok i = true ->
  exists e, set_lockspace i = Done e 1024 /\ disk_after c e true = 1024.
Proof.
  intros i h c R M A H Hh C Ro Wo. rewrite (C101_exact i (Number 1024) h c R M A H) by (auto; try lia; rewrite Ro; discriminate). cbn [asked]. unfold allowed.
  destruct (N.leb_spec 1024 h); [|lia]. rewrite Ro, Wo. destruct (N.eqb_spec c 1024) as [E | E]; [exists ENone | exists (EWrite 1024 true)]; split; auto.
Qed.
Print Assumptions C101_default.
Theorem C101_lease : forall i h c mb, st_reg i = Some false -> mode_of i Align -> align_size i = mb * 1048576 -> 1 <= mb <= 8 -> holds (hw i) h -> holds (cur i) c -> mb * 1024 <= h -> root i = true -> write_ok i = true ->
  exists e, set_lockspace i = Done e (mb * 1024) /\ disk_after c e true = mb * 1024.
Proof.
  intros i h c mb R M A B H C Hh Ro Wo. rewrite (C101_exact i Align h c R M) by (auto; try lia; rewrite Ro; discriminate). cbn [asked]. rewrite A.
  assert (E : mb * 1048576 / 1024 = mb * 1024) by (replace (mb * 1048576) with (mb * 1024 * 1024) by lia; apply N.div_mul; lia). rewrite E. unfold allowed.
  destruct (N.leb_spec (mb * 1024) h); [|lia]. rewrite Ro, Wo. destruct (N.eqb_spec c (mb * 1024)) as [F | F]; [exists ENone | exists (EWrite (mb * 1024) true)]; split; auto.
Qed.
Print Assumptions C101_lease.

(* what is reported is what the disk has, if the daemon is root or the helper did its work *)
Theorem C101_reported_partial : forall i e r c, holds (cur i) c -> set_lockspace i = Done e r -> r <> 0 -> disk_after c e true = r.
Proof.
  intros i e r c C H N. assert (Z0 : forall x, Done ENone 0 = Done x r -> False) by (intros x X; injection X as _ X; congruence).
  assert (K : forall v, set_kb i v = Done e r -> disk_after c e true = r).
  { intros v S. unfold set_kb in S. rewrite (holds_read _ _ 0 C) in S. change (0 <? 0)%Z with false in S. cbn iota in S.
    destruct (N.eqb_spec c v) as [-> | _]; [injection S as <- <-; reflexivity|]. destruct (root i).
    - injection S as <- <-. destruct (write_ok i); [reflexivity|contradiction].
    - destruct (negb (helper i)); [exfalso; eapply Z0; exact S|]. destruct (sent (sends i)) as [[|]|]; [injection S as <- <-; reflexivity|exfalso; eapply Z0; exact S|discriminate]. }
  unfold set_lockspace in H. destruct (st_reg i) as [[|]|]; try (exfalso; eapply Z0; exact H).
  destruct (ignore i); [exfalso; eapply Z0; exact H|]. destruct (negb (align i) && (num i =? 0)%Z); [exfalso; eapply Z0; exact H|].
  set (want := if align i then align_size i / 1024 else u32z (num i)) in *. clearbody want.
  destruct (read_uint (hw i) 0) as [|rv h]; [discriminate|]. destruct ((rv <? 0)%Z || (h =? 0)); [exfalso; eapply Z0; exact H|].
  destruct (h <? want); [destruct (h <? 1024); [exfalso; eapply Z0; exact H|]; destruct (want <? 1024); [exfalso; eapply Z0; exact H|]|]; eapply K; exact H.
Qed.
Print Assumptions C101_reported_partial.

(* ---- what is not so ---- *)
(* "512\n", "4096\n", "32767\n" *)
Definition f512 := Some [53; 49; 50; 10].
Definition f4096 := Some [52; 48; 57; 54; 10].
Definition f32767 := Some [51; 50; 55; 54; 55; 10].

(* not root: the value is reported though the helper could not write it *)
Theorem C101_reported_refuted : exists i e, root i = false /\ set_lockspace i = Done e 1024 /\ disk_after 512 e false = 512 /\ holds (cur i) 512.
Proof.
  exists (mkInp (Some false) false false 1024 1048576 f32767 f512 false true true [SEintr; SOk]), (EHelper 1024).
  split; [reflexivity|]. split; [vm_compute; reflexivity|]. split; [reflexivity|]. exists [53; 49; 50], [10]. split; [reflexivity|]. split; [left; reflexivity|]. split; [split; [discriminate|split; [repeat (constructor; [lia|]); constructor|reflexivity]]|split; [reflexivity|cbn [length]; lia]].
Qed.
Print Assumptions C101_reported_refuted.

(* the default setting makes the requests of a disk smaller that had larger ones *)
Theorem C101_lowers_refuted : exists i, num i = 1024%Z /\ root i = true /\ holds (cur i) 4096 /\ set_lockspace i = Done (EWrite 1024 true) 1024.
Proof.
  exists (mkInp (Some false) false false 1024 1048576 f32767 f4096 true false true []).
  split; [reflexivity|]. split; [reflexivity|]. split; [|vm_compute; reflexivity]. exists [52; 48; 57; 54], [10]. split; [reflexivity|]. split; [left; reflexivity|]. split; [split; [discriminate|split; [repeat (constructor; [lia|]); constructor|reflexivity]]|split; [reflexivity|cbn [length]; lia]].
Qed.
Print Assumptions C101_lowers_refuted.

(* lease size 8M on hardware that takes 4096: not 4096 but 1024 *)
Theorem C101_largest_refuted : exists i, align i = true /\ align_size i = 8388608 /\ holds (hw i) 4096 /\ set_lockspace i = Done (EWrite 1024 true) 1024.
Proof.
  exists (mkInp (Some false) false true 0 8388608 f4096 f512 true false true []).
  split; [reflexivity|]. split; [reflexivity|]. split; [|vm_compute; reflexivity]. exists [52; 48; 57; 54], [10]. split; [reflexivity|]. split; [left; reflexivity|]. split; [split; [discriminate|split; [repeat (constructor; [lia|]); constructor|reflexivity]]|split; [reflexivity|cbn [length]; lia]].
Qed.
Print Assumptions C101_largest_refuted.

(* a number below 0 is accepted from the file of settings (C80_max_sectors_refuted): 1024 is set *)
Theorem C101_negative_refuted : exists i, num i = (-2)%Z /\ set_lockspace i = Done (EWrite 1024 true) 1024.
Proof. exists (mkInp (Some false) false false (-2) 1048576 f32767 f512 true false true []). split; [reflexivity|]. vm_compute. reflexivity. Qed.
Print Assumptions C101_negative_refuted.

(* 32 bytes are read into 32 bytes and searched for the 0 *)
Theorem C101_fits_refuted : exists f, length f = 32%nat /\ forall x, read_uint (Some f) x = Over.
Proof. exists (repeat 49 32). split; [reflexivity|]. intros x. vm_compute. reflexivity. Qed.
Print Assumptions C101_fits_refuted.

Example C101_nonvacuous :
  set_lockspace (mkInp (Some false) false true 0 2097152 f4096 f512 true false true []) = Done (EWrite 2048 true) 2048 /\
  set_lockspace (mkInp (Some false) false false 2048 1048576 f512 f512 true false true []) = Done ENone 0 /\
  set_lockspace (mkInp (Some false) false false 512 1048576 f4096 f512 true false true []) = Done ENone 512 /\
  set_lockspace (mkInp (Some true) false true 0 2097152 f4096 f512 true false true []) = Done ENone 0 /\
  mode_of (mkInp (Some false) false false 2048 1048576 f512 f512 true false true []) (Number 2048).
Proof. split; [vm_compute; reflexivity|]. split; [vm_compute; reflexivity|]. split; [vm_compute; reflexivity|]. split; [vm_compute; reflexivity|]. cbn. lia. Qed.
