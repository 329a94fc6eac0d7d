(* Validation of lease records.
   src/paxos_lease.c:944-1035 (_verify_leader), src/delta_lease.c:81-144
   (verify_leader). *)
From Coq Require Import List NArith ZArith Lia Bool Arith.
From Verif Require Import Bytes Crc Codec.
Import ListNotations.
Open Scope N_scope.

(* src/leader.h:26-33 *)
Definition PAXOS_DISK_MAGIC : N := 0x06152010.
Definition PAXOS_DISK_CLEAR : N := 0x11282016.
Definition PAXOS_DISK_VERSION_MAJOR : N := 0x00060000.
Definition PAXOS_DISK_VERSION_MINOR : N := 4.
Definition DELTA_DISK_MAGIC : N := 0x12212010.
Definition DELTA_DISK_VERSION_MAJOR : N := 0x00030000.
Definition DELTA_DISK_VERSION_MINOR : N := 4.

(* src/sanlock_rv.h *)
Definition SANLK_OK : Z := 1.
Definition SANLK_LEADER_READ : Z := (-220).
Definition SANLK_LEADER_WRITE : Z := (-221).
Definition SANLK_LEADER_DIFF : Z := (-222).
Definition SANLK_LEADER_MAGIC : Z := (-223).
Definition SANLK_LEADER_VERSION : Z := (-224).
Definition SANLK_LEADER_SECTORSIZE : Z := (-225).
Definition SANLK_LEADER_LOCKSPACE : Z := (-226).
Definition SANLK_LEADER_RESOURCE : Z := (-227).
Definition SANLK_LEADER_NUMHOSTS : Z := (-228).
Definition SANLK_LEADER_CHECKSUM : Z := (-229).

(* C strncmp(a, b, n) = 0 on byte arrays; reading past the end of a shorter
   list is treated as reading a NUL (never happens for 48-byte arrays). *)
Fixpoint strncmp_eq (n : nat) (a b : bytes) : bool :=
  match n with
  | O => true
  | S n' =>
      let x := hd 0 a in
      let y := hd 0 b in
      if x =? y then (if x =? 0 then true else strncmp_eq n' (tl a) (tl b))
      else false
  end.

(* the result of the checks of _verify_leader in source order; the printing
   branches (print_error) only log and reread for logging *)
Definition verify_leader (space res : bytes) (host_id : N) (lr : leader) (checksum : N) : Z :=
  if l_magic lr =? PAXOS_DISK_CLEAR then SANLK_LEADER_MAGIC
  else if negb (l_magic lr =? PAXOS_DISK_MAGIC) then SANLK_LEADER_MAGIC
  else if negb (N.land (l_version lr) 0xFFFF0000 =? PAXOS_DISK_VERSION_MAJOR)
       then SANLK_LEADER_VERSION
  else if negb (strncmp_eq NAME_ID_SIZE (l_space_name lr) space) then SANLK_LEADER_LOCKSPACE
  else if negb (strncmp_eq NAME_ID_SIZE (l_resource_name lr) res) then SANLK_LEADER_RESOURCE
  else if l_num_hosts lr <? host_id then SANLK_LEADER_NUMHOSTS
  else if negb (l_checksum lr =? checksum) then SANLK_LEADER_CHECKSUM
  else SANLK_OK.

(* src/delta_lease.c:81-144 *)
Definition delta_verify_leader (space : bytes) (lr : leader) (checksum : N) : Z :=
  if negb (l_magic lr =? DELTA_DISK_MAGIC) then SANLK_LEADER_MAGIC
  else if negb (N.land (l_version lr) 0xFFFF0000 =? DELTA_DISK_VERSION_MAJOR)
       then SANLK_LEADER_VERSION
  else if negb (strncmp_eq NAME_ID_SIZE (l_space_name lr) space) then SANLK_LEADER_LOCKSPACE
  else if negb (l_checksum lr =? checksum) then SANLK_LEADER_CHECKSUM
  else SANLK_OK.

(* ------------------------------------------------------------------ *)
(* The C string held in an array of at most n characters: the bytes before
   the first NUL (specification level). *)
Fixpoint cstr (n : nat) (l : bytes) : bytes :=
  match n, l with
  | O, _ => []
  | _, [] => []
  | S n', b :: r => if b =? 0 then [] else b :: cstr n' r
  end.

Lemma strncmp_eq_spec n a b : strncmp_eq n a b = true <-> cstr n a = cstr n b.
Proof.
  revert a b. induction n; intros a b; [cbn; tauto|].
  destruct a as [|x a], b as [|y b]; cbn [strncmp_eq cstr hd tl].
  - cbn. split; auto.
  - destruct (0 =? y) eqn:E.
    + apply N.eqb_eq in E. subst y. cbn. split; auto.
    + rewrite N.eqb_sym, E. split; [discriminate|]. intros H; discriminate H.
  - destruct (x =? 0) eqn:E.
    + split; auto.
    + split; discriminate.
  - destruct (x =? y) eqn:E.
    + apply N.eqb_eq in E. subst y. destruct (x =? 0); [tauto|].
      rewrite IHn. split; [intros ->; auto|]. intros H. injection H; auto.
    + split; [discriminate|]. intros H.
      destruct (x =? 0) eqn:Ex, (y =? 0) eqn:Ey; try discriminate.
      * apply N.eqb_eq in Ex, Ey. subst. rewrite N.eqb_refl in E. discriminate.
      * injection H as -> _. rewrite N.eqb_refl in E. discriminate.
Qed.

Lemma land_high_div v :
  v < 2 ^ 32 -> N.land v 0xFFFF0000 = 2 ^ 16 * (v / 2 ^ 16).
Proof.
  intros Hv.
  apply N.bits_inj. intros m.
  rewrite N.land_spec.
  replace (2 ^ 16 * (v / 2 ^ 16)) with (N.shiftl (N.shiftr v 16) 16)
    by (rewrite N.shiftl_mul_pow2, N.shiftr_div_pow2; lia).
  replace 0xFFFF0000 with (N.shiftl (N.ones 16) 16) by reflexivity.
  destruct (N.le_gt_cases 16 m).
  - rewrite !N.shiftl_spec_high' by auto.
    rewrite N.shiftr_spec'. replace (m - 16 + 16) with m by lia.
    destruct (N.le_gt_cases 32 m).
    + rewrite (proj1 (lt_pow2_testbit v 32) Hv) by auto. reflexivity.
    + rewrite N.ones_spec_low by lia. apply andb_true_r.
  - rewrite !N.shiftl_spec_low by auto. apply andb_false_r.
Qed.

(* major version (upper 16 bits) equals that of m *)
Lemma version_major v m :
  v < 2 ^ 32 -> m < 2 ^ 32 -> m mod 2 ^ 16 = 0 ->
  (N.land v 0xFFFF0000 =? m) = true <-> v / 2 ^ 16 = m / 2 ^ 16.
Proof.
  intros Hv Hm Hz. rewrite land_high_div by auto. rewrite N.eqb_eq.
  rewrite (N.div_mod' m (2 ^ 16)) at 1. rewrite Hz. lia.
Qed.

Lemma verify_leader_ok_iff space res host_id lr ck :
  u32 (l_version lr) ->
  verify_leader space res host_id lr ck = SANLK_OK <->
  (l_magic lr = PAXOS_DISK_MAGIC /\
   l_version lr / 2 ^ 16 = 6 /\
   cstr NAME_ID_SIZE (l_space_name lr) = cstr NAME_ID_SIZE space /\
   cstr NAME_ID_SIZE (l_resource_name lr) = cstr NAME_ID_SIZE res /\
   host_id <= l_num_hosts lr /\
   l_checksum lr = ck).
Proof.
  intros Hv. unfold verify_leader.
  pose proof (version_major (l_version lr) PAXOS_DISK_VERSION_MAJOR Hv eq_refl eq_refl) as VM.
  change (PAXOS_DISK_VERSION_MAJOR / 2 ^ 16) with 6 in VM.
  rewrite <- !strncmp_eq_spec, <- VM, <- N.ltb_ge, <- !N.eqb_eq.
  destruct (l_magic lr =? PAXOS_DISK_CLEAR) eqn:E0.
  { apply N.eqb_eq in E0. rewrite E0. cbn. unfold SANLK_LEADER_MAGIC, SANLK_OK.
    split; [discriminate|]. intros (H & _). discriminate. }
  destruct (l_magic lr =? PAXOS_DISK_MAGIC); cbn [negb]; [|unfold SANLK_LEADER_MAGIC, SANLK_OK; split; [discriminate|intuition discriminate]].
  destruct (N.land (l_version lr) 0xFFFF0000 =? PAXOS_DISK_VERSION_MAJOR); cbn [negb]; [|unfold SANLK_LEADER_VERSION, SANLK_OK; split; [discriminate|intuition discriminate]].
  destruct (strncmp_eq NAME_ID_SIZE (l_space_name lr) space); cbn [negb]; [|unfold SANLK_LEADER_LOCKSPACE, SANLK_OK; split; [discriminate|intuition discriminate]].
  destruct (strncmp_eq NAME_ID_SIZE (l_resource_name lr) res); cbn [negb]; [|unfold SANLK_LEADER_RESOURCE, SANLK_OK; split; [discriminate|intuition discriminate]].
  destruct (l_num_hosts lr <? host_id); cbn [negb]; [unfold SANLK_LEADER_NUMHOSTS, SANLK_OK; split; [discriminate|intuition discriminate]|].
  destruct (l_checksum lr =? ck); cbn [negb]; [|unfold SANLK_LEADER_CHECKSUM, SANLK_OK; split; [discriminate|intuition discriminate]].
  intuition.
Qed.

Lemma delta_verify_leader_ok_iff space lr ck :
  u32 (l_version lr) ->
  delta_verify_leader space lr ck = SANLK_OK <->
  (l_magic lr = DELTA_DISK_MAGIC /\
   l_version lr / 2 ^ 16 = 3 /\
   cstr NAME_ID_SIZE (l_space_name lr) = cstr NAME_ID_SIZE space /\
   l_checksum lr = ck).
Proof.
  intros Hv. unfold delta_verify_leader.
  pose proof (version_major (l_version lr) DELTA_DISK_VERSION_MAJOR Hv eq_refl eq_refl) as VM.
  change (DELTA_DISK_VERSION_MAJOR / 2 ^ 16) with 3 in VM.
  rewrite <- !strncmp_eq_spec, <- VM, <- !N.eqb_eq.
  destruct (l_magic lr =? DELTA_DISK_MAGIC); cbn [negb]; [|unfold SANLK_LEADER_MAGIC, SANLK_OK; split; [discriminate|intuition discriminate]].
  destruct (N.land (l_version lr) 0xFFFF0000 =? DELTA_DISK_VERSION_MAJOR); cbn [negb]; [|unfold SANLK_LEADER_VERSION, SANLK_OK; split; [discriminate|intuition discriminate]].
  destruct (strncmp_eq NAME_ID_SIZE (l_space_name lr) space); cbn [negb]; [|unfold SANLK_LEADER_LOCKSPACE, SANLK_OK; split; [discriminate|intuition discriminate]].
  destruct (l_checksum lr =? ck); cbn [negb]; [|unfold SANLK_LEADER_CHECKSUM, SANLK_OK; split; [discriminate|intuition discriminate]].
  intuition.
Qed.

Lemma verify_leader_checksum_needed space res host_id lr ck :
  l_checksum lr <> ck -> verify_leader space res host_id lr ck <> SANLK_OK.
Proof.
  intros H. unfold verify_leader.
  repeat match goal with |- context [if ?b then _ else _] => destruct b eqn:?; try discriminate end.
  apply negb_false_iff, N.eqb_eq in Heqb5. contradiction.
Qed.

Lemma delta_verify_leader_checksum_needed space lr ck :
  l_checksum lr <> ck -> delta_verify_leader space lr ck <> SANLK_OK.
Proof.
  intros H. unfold delta_verify_leader.
  repeat match goal with |- context [if ?b then _ else _] => destruct b eqn:?; try discriminate end.
  apply negb_false_iff, N.eqb_eq in Heqb2. contradiction.
Qed.
