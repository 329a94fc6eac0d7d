(* Reporting the owners of a resource from the lease area.
   Models src/resource.c:157-327 (read_resource_owners) and src/paxos_lease.c:1146-1177
   (paxos_read_buf).  The area is a function from offsets to bytes and does not change while
   it is read.  Not modelled: allocation failure, logging. *)
From Coq Require Import List NArith ZArith Lia Bool ZifyBool ZifyN ZifyNat.
From Verif Require Import Bytes Crc Codec Leader Sizes.
Import ListNotations.
Open Scope Z_scope.

Definition EINVAL : Z := 22.

(* [n] bytes of the area from offset [off] *)
Definition bytes_at (area : N -> N) (off : N) (n : nat) : bytes :=
  map (fun k => area (off + N.of_nat k)%N) (seq 0 n).

(* conversion of a uint32_t to int *)
Definition to_int (x : N) : Z := if (x <? 2 ^ 31)%N then Z.of_N x else Z.of_N x - 2 ^ 32.

(* struct sanlk_host as far as it is filled in; src/resource.c:289-293, 312-314 *)
Record rhost := mkRH { rh_id : N; rh_gen : N; rh_ts : N }.

Inductive ores :=
| ORv (rv : Z)                                           (* failure *)
| OUB                                                    (* access outside of a buffer *)
| OOk (lver : N) (shared : bool) (count : N) (l : list rhost).

(* src/resource.c:242: the leader has an owner *)
Definition has_owner (lr : leader) : bool := negb (l_timestamp lr =? 0)%N && negb (l_owner_id lr =? 0)%N.
(* src/resource.c:258, 309 *)
Definition is_owner (lr : leader) (h : N) : bool := has_owner lr && (h =? l_owner_id lr)%N.

(* src/resource.c:246-249, 300-303: the mode block of loop index [i]; None if it is outside of the buffer
   (or the int product overflows) *)
Definition mb_at (area : N -> N) (ss as_ : Z) (i : N) : option mblock :=
  let off := (2 + Z.of_N i) * ss in
  if (off <? 0) || (as_ <? off + Z.of_nat MBLOCK_OFFSET + Z.of_nat MBLOCK_SIZE) then None
  else Some (mode_block_in (bytes_at area (Z.to_N off + N.of_nat MBLOCK_OFFSET)%N MBLOCK_SIZE)).

Definition is_shared (m : mblock) : bool := negb (N.land (m_flags m) MBLOCK_SHARED =? 0)%N.

(* src/resource.c:245-262: count the hosts; the result is the SHARED flag and the count *)
Fixpoint count_loop (fuel : nat) (area : N -> N) (ss as_ : Z) (lr : leader) (i : N) (sh : bool) (c : N) : option (bool * N) :=
  match fuel with
  | O => None
  | S f =>
      if (i <? l_num_hosts lr)%N then
        match mb_at area ss as_ i with
        | None => None
        | Some m =>
            if negb (is_shared m) then count_loop f area ss as_ lr (i + 1) sh c
            else if is_owner lr (i + 1) then count_loop f area ss as_ lr (i + 1) true c
            else count_loop f area ss as_ lr (i + 1) true (c + 1)
        end
      else Some (sh, c)
  end%N.

(* src/resource.c:299-315: fill in the hosts *)
Fixpoint fill_loop (fuel : nat) (area : N -> N) (ss as_ : Z) (lr : leader) (i : N) : option (list rhost) :=
  match fuel with
  | O => None
  | S f =>
      if (i <? l_num_hosts lr)%N then
        match mb_at area ss as_ i with
        | None => None
        | Some m =>
            if negb (is_shared m) then fill_loop f area ss as_ lr (i + 1)
            else if is_owner lr (i + 1) then fill_loop f area ss as_ lr (i + 1)
            else option_map (cons (mkRH (i + 1) (m_generation m) 0)) (fill_loop f area ss as_ lr (i + 1))
        end
      else Some []
  end%N.

(* enough for every access inside of the buffer *)
Definition scan_fuel (ss as_ : Z) : nat := S (Z.to_nat (as_ / ss)).

(* src/resource.c:240-316 *)
Definition report_owners (area : N -> N) (ss as_ : Z) (lr : leader) : ores :=
  let c0 := if has_owner lr then 1%N else 0%N in
  match count_loop (scan_fuel ss as_) area ss as_ lr 0 false c0 with
  | None => OUB
  | Some (sh, c) =>
      if (c =? 0)%N then OOk (l_lver lr) sh 0 []
      else match fill_loop (scan_fuel ss as_) area ss as_ lr 0 with
           | None => OUB
           | Some l =>
               let all := (if has_owner lr then [mkRH (l_owner_id lr) (l_owner_generation lr) (l_timestamp lr)] else []) ++ l in
               if (c <? N.of_nat (length all))%N then OUB else OOk (l_lver lr) sh c all
           end
  end.

Inductive pres := PDone (r : ores) | PRetry (ss as_ : Z).

(* src/resource.c:189-238 with the sizes ss and as_; [rd n] is the result of reading n bytes *)
Definition pass (area : N -> N) (rd : Z -> Z) (space res : bytes) (sset aset : bool) (ss as_ : Z) : pres :=
  if (ss =? 0) || (as_ =? 0) then PDone (ORv (- EINVAL))
  else if as_ <? 0 then PDone (ORv as_)
  else if rd as_ <? 0 then PDone (ORv (rd as_))
  else if as_ <? Z.of_nat LEADER_SIZE then PDone OUB
  else
    let e := bytes_at area 0 LEADER_SIZE in
    let ck := leader_checksum e in
    let lr := leader_record_in e in
    let a0 := align_size_from_flag (l_flags lr) in
    let a := if a0 =? 0 then sector_size_to_align_size_old (to_int (l_sector_size lr)) else a0 in
    if sset && negb (ss =? to_int (l_sector_size lr)) then PDone (ORv (- EINVAL))
    else if aset && negb (as_ =? a) then PDone (ORv (- EINVAL))
    else if negb (ss =? to_int (l_sector_size lr)) || negb (as_ =? a) then PRetry (to_int (l_sector_size lr)) a
    else if verify_leader space res 0 lr ck <? 0 then PDone (ORv (verify_leader space res 0 lr ck))
    else PDone (report_owners area ss as_ lr).

(* src/resource.c:175-190: sizes given by the client, 0 if not; [k] passes *)
Fixpoint passes (k : nat) (area : N -> N) (rd : Z -> Z) (space res : bytes) (sset aset : bool) (ss as_ : Z) : option ores :=
  match k with
  | O => None
  | S k' => match pass area rd space res sset aset ss as_ with
            | PDone r => Some r
            | PRetry s a => passes k' area rd space res sset aset s a
            end
  end.
Definition read_owners (k : nat) (area : N -> N) (rd : Z -> Z) (space res : bytes) (ss as_ : Z) : option ores :=
  let s0 := if ss =? 0 then 512 else ss in
  let a0 := if as_ =? 0 then sector_size_to_align_size_old s0 else as_ in
  passes k area rd space res (negb (ss =? 0)) (negb (as_ =? 0)) s0 a0.

(* ---------------- proofs ---------------- *)
Lemma mb_at_fuel area ss as_ i : 0 < ss -> mb_at area ss as_ i <> None -> (N.to_nat i < Z.to_nat (as_ / ss))%nat.
Proof.
  unfold mb_at. intros P H. destruct (_ || _) eqn:E; [congruence|]. apply orb_false_iff in E.
  destruct E as [E1 E2]. assert ((2 + Z.of_N i) * ss <= as_) by (unfold MBLOCK_OFFSET, MBLOCK_SIZE in *; lia).
  assert (2 + Z.of_N i <= as_ / ss) by (apply Z.div_le_lower_bound; lia). lia.
Qed.

Lemma mb_at_neg area ss as_ i : ss < 0 -> mb_at area ss as_ i = None.
Proof.
  intros P. unfold mb_at. destruct (Z.ltb_spec ((2 + Z.of_N i) * ss) 0); [reflexivity|]. nia.
Qed.

(* the hosts from index i on, given enough fuel *)
Lemma fill_spec area ss as_ lr : forall fuel i l,
  fill_loop fuel area ss as_ lr i = Some l ->
  (forall j, (i <= j < l_num_hosts lr)%N -> mb_at area ss as_ j <> None)
  /\ (forall x, In x l <-> exists j m, (i <= j < l_num_hosts lr)%N /\ mb_at area ss as_ j = Some m
        /\ is_shared m = true /\ is_owner lr (j + 1) = false /\ x = mkRH (j + 1) (m_generation m) 0)
  /\ NoDup (map rh_id l) /\ (forall x, In x l -> (i < rh_id x)%N).
Proof.
  induction fuel; intros i l; cbn [fill_loop]; [discriminate|].
  destruct (N.ltb_spec i (l_num_hosts lr)) as [LT|GE].
  2:{ intros H. injection H as <-. repeat split.
      - intros; lia.
      - intros [].
      - intros (j & m & J & _). lia.
      - constructor.
      - intros x []. }
  destruct (mb_at area ss as_ i) as [m|] eqn:E; [|discriminate].
  assert (REC : forall l', fill_loop fuel area ss as_ lr (i + 1) = Some l' ->
     (is_shared m && negb (is_owner lr (i + 1)) = false /\ l = l'
      \/ is_shared m && negb (is_owner lr (i + 1)) = true /\ l = mkRH (i + 1) (m_generation m) 0 :: l') ->
     (forall j, (i <= j < l_num_hosts lr)%N -> mb_at area ss as_ j <> None)
     /\ (forall x, In x l <-> exists j m, (i <= j < l_num_hosts lr)%N /\ mb_at area ss as_ j = Some m
        /\ is_shared m = true /\ is_owner lr (j + 1) = false /\ x = mkRH (j + 1) (m_generation m) 0)
     /\ NoDup (map rh_id l) /\ (forall x, In x l -> (i < rh_id x)%N)).
  { intros l' F C. destruct (IHfuel _ _ F) as (A & B & D & G). split; [|split; [|split]].
    - intros j J. destruct (N.eq_dec j i) as [->|NE]; [congruence|]. apply A. lia.
    - intros x. destruct C as [[C ->]|[C ->]].
      + rewrite B. split; intros (j & m' & J & K & S & O & X).
        * exists j, m'. repeat split; auto; lia.
        * exists j, m'. repeat split; auto; try lia. destruct (N.eq_dec j i) as [->|NE]; [|lia].
          rewrite E in K. injection K as <-. rewrite S, O in C. discriminate.
      + cbn [In]. rewrite B. apply andb_true_iff in C. destruct C as [C1 C2]. split.
        * intros [<-|(j & m' & J & K & S & O & X)].
          -- exists i, m. repeat split; auto; try lia.
          -- exists j, m'. repeat split; auto; lia.
        * intros (j & m' & J & K & S & O & X). destruct (N.eq_dec j i) as [->|NE].
          -- left. rewrite E in K. injection K as <-. auto.
          -- right. exists j, m'. repeat split; auto; lia.
    - destruct C as [[C ->]|[C ->]]; auto. cbn [map rh_id]. constructor; auto.
      intros H. apply in_map_iff in H. destruct H as (x & X1 & X2). specialize (G _ X2). lia.
    - intros x. destruct C as [[C ->]|[C ->]].
      + intros H. specialize (G _ H). lia.
      + intros [<-|H]; cbn [rh_id]; [lia|]. specialize (G _ H). lia. }
  destruct (is_shared m) eqn:SH; cbn [negb].
  - destruct (is_owner lr (i + 1)) eqn:OW.
    + intros H. apply (REC _ H). left. auto.
    + destruct (fill_loop fuel area ss as_ lr (i + 1)) as [l'|] eqn:F; [|discriminate].
      cbn [option_map]. intros H. injection H as <-. apply (REC _ eq_refl). right. auto.
  - intros H. apply (REC _ H). left. auto.
Qed.

(* counting and filling agree *)
Lemma count_fill area ss as_ lr : forall fuel i sh c,
  match count_loop fuel area ss as_ lr i sh c with
  | None => fill_loop fuel area ss as_ lr i = None
  | Some (sh', c') => exists l, fill_loop fuel area ss as_ lr i = Some l /\ c' = (c + N.of_nat (length l))%N
       /\ (sh' = true <-> sh = true \/ exists j m, (i <= j < l_num_hosts lr)%N /\ mb_at area ss as_ j = Some m /\ is_shared m = true)
  end.
Proof.
  induction fuel; intros i sh c; cbn [count_loop fill_loop]; auto.
  destruct (N.ltb_spec i (l_num_hosts lr)) as [LT|GE].
  2:{ exists []. split; auto. split; [cbn; lia|]. split; auto. intros [H|(j & m & J & _)]; auto; lia. }
  destruct (mb_at area ss as_ i) as [m|] eqn:E; auto.
  assert (SHF : is_shared m = false -> forall s, (s = true \/ exists j m, (i + 1 <= j < l_num_hosts lr)%N /\ mb_at area ss as_ j = Some m /\ is_shared m = true)
     <-> (s = true \/ exists j m, (i <= j < l_num_hosts lr)%N /\ mb_at area ss as_ j = Some m /\ is_shared m = true)).
  { intros NS s. split; intros [H|(j & m' & J & K & S)]; auto; right; exists j, m'; repeat split; auto; try lia.
    destruct (N.eq_dec j i) as [->|]; [congruence|lia]. }
  assert (SHT : is_shared m = true -> forall s P, (true = true \/ P) <-> (s = true \/ exists j m, (i <= j < l_num_hosts lr)%N /\ mb_at area ss as_ j = Some m /\ is_shared m = true)).
  { intros S s P. split; auto. intros _. right. exists i, m. repeat split; auto; lia. }
  destruct (is_shared m) eqn:SH; cbn [negb].
  - destruct (is_owner lr (i + 1)) eqn:OW.
    + specialize (IHfuel (i + 1)%N true c). destruct (count_loop fuel area ss as_ lr (i + 1) true c) as [[sh' c']|]; auto.
      destruct IHfuel as (l & A & B & C). exists l. split; auto. split; auto. rewrite C. apply SHT. reflexivity.
    + specialize (IHfuel (i + 1)%N true (c + 1)%N). destruct (count_loop fuel area ss as_ lr (i + 1) true (c + 1)) as [[sh' c']|].
      * destruct IHfuel as (l & A & B & C). rewrite A. cbn [option_map]. eexists. split; [reflexivity|]. split; [cbn [length]; lia|].
        rewrite C. apply SHT. reflexivity.
      * rewrite IHfuel. reflexivity.
  - specialize (IHfuel (i + 1)%N sh c). destruct (count_loop fuel area ss as_ lr (i + 1) sh c) as [[sh' c']|]; auto.
    destruct IHfuel as (l & A & B & C). exists l. split; auto. split; auto. rewrite C. apply SHF. reflexivity.
Qed.

(* the fuel is enough: a failure means an access outside of the buffer *)
Lemma fill_fails area ss as_ lr : 0 < ss -> forall fuel i,
  (N.to_nat i <= Z.to_nat (as_ / ss) < fuel + N.to_nat i)%nat -> fill_loop fuel area ss as_ lr i = None ->
  exists j, (i <= j < l_num_hosts lr)%N /\ mb_at area ss as_ j = None.
Proof.
  intros P. induction fuel; intros i L; cbn [fill_loop]; [lia|].
  destruct (N.ltb_spec i (l_num_hosts lr)) as [LT|GE]; [|discriminate].
  destruct (mb_at area ss as_ i) as [m|] eqn:E.
  2:{ intros _. exists i. split; [lia|exact E]. }
  assert (mb_at area ss as_ i <> None) as K by congruence. apply mb_at_fuel in K; auto.
  intros H. assert (F : fill_loop fuel area ss as_ lr (i + 1) = None).
  { destruct (is_shared m), (is_owner lr (i + 1)), (fill_loop fuel area ss as_ lr (i + 1)); cbn in H; congruence. }
  apply IHfuel in F; [|lia]. destruct F as (j & J & K'). exists j. split; [lia|exact K'].
Qed.

Lemma report_ub area ss as_ lr : ss <> 0 ->
  report_owners area ss as_ lr = OUB <-> exists j, (j < l_num_hosts lr)%N /\ mb_at area ss as_ j = None.
Proof.
  intros NZ. unfold report_owners.
  pose proof (count_fill area ss as_ lr (scan_fuel ss as_) 0%N false (if has_owner lr then 1%N else 0%N)) as CF.
  destruct (count_loop (scan_fuel ss as_) area ss as_ lr 0 false _) as [[sh c]|].
  - destruct CF as (l & F & -> & _). rewrite F. destruct (fill_spec _ _ _ _ _ _ _ F) as (A & _). split.
    + destruct (_ =? 0)%N; [discriminate|]. rewrite app_length.
      destruct (has_owner lr); cbn [length]; (match goal with |- context[(?a <? ?b)%N] => destruct (N.ltb_spec a b); [lia|] end); discriminate.
    + intros (j & J & K). exfalso. apply (A j); auto. lia.
  - split; auto. intros _. destruct (Z.lt_trichotomy ss 0) as [N|[Z0|P]]; [|contradiction|].
    + assert (Z : (0 < l_num_hosts lr)%N).
      { unfold scan_fuel in CF. cbn [fill_loop] in CF. destruct (N.ltb_spec 0 (l_num_hosts lr)); [assumption|discriminate]. }
      exists 0%N. split; auto. apply mb_at_neg. exact N.
    + destruct (fill_fails area ss as_ lr P (scan_fuel ss as_) 0%N) as (j & J & K); auto; [unfold scan_fuel; lia|].
      exists j. split; [lia|exact K].
Qed.
