(* C06: size flags and sizes translate faithfully. *)
From Coq Require Import List NArith ZArith Lia Bool Arith.
From Verif Require Import Sizes.
Import ListNotations.
Open Scope Z_scope.

(* the documented table of supported combinations (src/sanlock_admin.h:183-187) *)
Definition documented : list (Z * Z * Z) :=
  [ (512, 1048576, 2000); (4096, 1048576, 250); (4096, 2097152, 500);
    (4096, 4194304, 1000); (4096, 8388608, 2000) ].

(* every accepted flag word denotes a documented combination, or none at all *)
Theorem C06_accepted_flags_supported :
  forall flags ss al mh,
    sizes_from_flags flags = Some (ss, al, mh) ->
    (In (ss, al, mh) documented) \/
    (ss = 0 /\ al = 0 /\ mh = 0 /\
     forall f, In f [F_ALIGN1M; F_ALIGN2M; F_ALIGN4M; F_ALIGN8M; F_SECTOR512; F_SECTOR4K] ->
       N.land flags f = 0%N).
Proof.
  intros flags ss al mh. unfold sizes_from_flags, align_size_from_flag, sector_flag_to_size.
  assert (HF : forall f, has flags f = false -> N.land flags f = 0%N).
  { intros f H. unfold has in H. apply negb_false_iff, N.eqb_eq in H. exact H. }
  destruct (has flags F_ALIGN1M) eqn:A1; [|destruct (has flags F_ALIGN2M) eqn:A2;
    [|destruct (has flags F_ALIGN4M) eqn:A3; [|destruct (has flags F_ALIGN8M) eqn:A4]]];
  (destruct (has flags F_SECTOR512) eqn:S1; [|destruct (has flags F_SECTOR4K) eqn:S2]);
  intros H; vm_compute in H; try discriminate; injection H as <- <- <-;
  try (left; cbn [documented In]; tauto).
  right. repeat split; auto.
  intros f Hf. cbn [In] in Hf. intuition (subst f; apply HF; assumption).
Qed.

(* encoding a documented combination and decoding gives it back, and other
   bits of the word do not matter; the same for the rindex header flags *)
Theorem C06_roundtrip :
  forall ss al mh other,
    In (ss, al, mh) documented ->
    N.land other 0x3F0 = 0%N ->
    sizes_from_flags (N.lor other (N.lor (align_flag_from_size al) (sector_size_to_flag ss)))
      = Some (ss, al, mh).
Proof.
  intros ss al mh other Hin Ho.
  assert (L : forall f g, N.land 0x3F0 f = f ->
              has (N.lor other g) f = has g f).
  { intros f g Hf. unfold has. rewrite N.land_lor_distr_l.
    rewrite <- Hf at 1. rewrite N.land_assoc, Ho. cbn. reflexivity. }
  unfold sizes_from_flags, align_size_from_flag, sector_flag_to_size.
  rewrite !L by reflexivity.
  cbn [documented In] in Hin.
  destruct Hin as [E|[E|[E|[E|[E|[]]]]]]; injection E as <- <- <-; vm_compute; reflexivity.
Qed.

Theorem C06_align_roundtrip :
  forall al, In al [ALIGN_SIZE_1M; ALIGN_SIZE_2M; ALIGN_SIZE_4M; ALIGN_SIZE_8M] ->
    align_size_from_flag (align_flag_from_size al) = al /\
    rh_align_size_from_flag (rh_align_flag_from_size al) = al.
Proof.
  intros al [<-|[<-|[<-|[<-|[]]]]]; vm_compute; auto.
Qed.

(* sizes outside the table have no encoding: max_hosts is 0 exactly then *)
Theorem C06_max_hosts_exact :
  forall ss al, size_to_max_hosts ss al <> 0 <-> In (ss, al, size_to_max_hosts ss al) documented.
Proof.
  intros ss al. split.
  - intros H. unfold size_to_max_hosts in *. unfold documented.
    change ALIGN_SIZE_8M with 8388608 in *; change ALIGN_SIZE_4M with 4194304 in *;
    change ALIGN_SIZE_2M with 2097152 in *; change ALIGN_SIZE_1M with 1048576 in *.
    destruct ((al =? 1048576) && (ss =? 512)) eqn:E1.
    { apply andb_prop in E1. destruct E1 as [A B]. apply Z.eqb_eq in A, B. subst. cbn; auto. }
    destruct ((al =? 1048576) && (ss =? 4096)) eqn:E2.
    { apply andb_prop in E2. destruct E2 as [A B]. apply Z.eqb_eq in A, B. subst. cbn; auto. }
    destruct ((al =? 2097152) && (ss =? 4096)) eqn:E3.
    { apply andb_prop in E3. destruct E3 as [A B]. apply Z.eqb_eq in A, B. subst. cbn; auto. }
    destruct ((al =? 4194304) && (ss =? 4096)) eqn:E4.
    { apply andb_prop in E4. destruct E4 as [A B]. apply Z.eqb_eq in A, B. subst. cbn; auto. }
    destruct ((al =? 8388608) && (ss =? 4096)) eqn:E5.
    { apply andb_prop in E5. destruct E5 as [A B]. apply Z.eqb_eq in A, B. subst. cbn; auto 6. }
    congruence.
  - cbn [documented In]. intros [E|[E|[E|[E|[E|[]]]]]]; injection E as <- <- <-; discriminate.
Qed.

(* a leader record that lacks an align flag falls back to the historical size,
   which is itself a documented combination *)
Theorem C06_old_align :
  forall ss, ss = 512 \/ ss = 4096 ->
    size_to_max_hosts ss (sector_size_to_align_size_old ss) = 2000.
Proof. intros ss [->| ->]; reflexivity. Qed.

Example C06_nonvacuous :
  sizes_from_flags 0x220 = Some (4096, 2097152, 500) /\ sizes_from_flags 0x120 = None /\
  sizes_from_flags 0x20 = None /\ sizes_from_flags 0x4 = Some (0, 0, 0).
Proof. vm_compute. auto. Qed.

Print Assumptions C06_accepted_flags_supported.
Print Assumptions C06_roundtrip.
Print Assumptions C06_align_roundtrip.
Print Assumptions C06_max_hosts_exact.
Print Assumptions C06_old_align.
