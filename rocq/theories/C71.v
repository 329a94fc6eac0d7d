(* C71: an index command gives back what it took, and reports success only when the index was written *)
From Coq Require Import List NArith ZArith Lia Bool Arith.
From Verif Require Import RindexFlow.
Import ListNotations.
Open Scope Z_scope.

(* ---- specification ---- *)
Inductive cmd := Format | Create | Delete | Lookup (nolock : bool) | Update (nolock remove : bool) | Rebuild (nolock : bool).
Definition exec (c : cmd) (i : cin) : result :=
  match c with
  | Format => rindex_format i | Create => rindex_create i | Delete => rindex_delete i
  | Lookup n => rindex_lookup n i | Update n r => rindex_update n r i | Rebuild n => rindex_rebuild n i
  end.

Definition same (a b : res) : bool :=
  match a, b with
  | RDisk, RDisk | ROp, ROp | RLease, RLease => true
  | RTok n, RTok m | RBuf n, RBuf m => Nat.eqb n m
  | _, _ => false
  end.
(* how many of r are held after t *)
Fixpoint held (r : res) (t : list ev) : Z :=
  match t with
  | [] => 0
  | Get q :: t => (if same q r then 1 else 0) + held r t
  | Put q :: t | Kept q :: t => (if same q r then -1 else 0) + held r t
  | Wr _ :: t => held r t
  end.
Fixpoint writes (t : list ev) : list what :=
  match t with [] => [] | Wr w :: t => w :: writes t | _ :: t => writes t end.

(* what a command has to write, in this order *)
Definition needs (c : cmd) : list what :=
  match c with
  | Format => [WHeader; WIndexLease]
  | Create => [WNewLease; WEntry]
  | Delete => [WNoEntry; WClearedLease]
  | Lookup _ => []
  | Update _ r => [if r then WNoEntry else WEntry]
  | Rebuild _ => [WAll]
  end.

Definition C71_statement : Prop := forall c i, exists rv,
  fst (exec c i) = Some rv /\ (forall r, held r (snd (exec c i)) = 0) /\
  (0 <= rv -> writes (snd (exec c i)) = needs c).

(* ---- proofs ---- *)
Ltac cases := repeat match goal with
  | |- context [if ?b then _ else _] => destruct b eqn:?; cbn [fst snd negb andb app]
  end.

Ltac hyps := repeat match goal with
  | H : (_ <? _) = true |- _ => apply Z.ltb_lt in H
  | H : (_ <? _) = false |- _ => apply Z.ltb_ge in H
  | H : (_ =? _) = true |- _ => apply Z.eqb_eq in H
  | H : (_ =? _) = false |- _ => apply Z.eqb_neq in H
  | H : negb _ = true |- _ => apply negb_true_iff in H
  | H : negb _ = false |- _ => apply negb_false_iff in H
  end.

(* memory does not run out, buffers and offsets are good *)
Record good (i : cin) : Prop := {
  g_rmem : r_mem (c_read i) = 0;
  g_umem : u_mem (c_upd i) = 0;
  g_nmem : n_mem (c_init i) = 0;
  g_nio : n_io (c_init i) < 0 -> n_io (c_init i) = SANLK_AIO_TIMEOUT;
  g_nsz : n_sizes (c_init i) <= 0;
  g_al : c_aligned i = true }.
(* for format *)
Record good_format (i : cin) : Prop := {
  f_sz : c_sizes i = 0; f_mem : c_mem i = 0; f_nio : 0 <= n_io (c_init i) }.

Ltac go := unfold exec, rindex_format, rindex_create, rindex_delete, rindex_lookup, rindex_update, rindex_rebuild,
  with_index, with_read, read_header, read_rindex, create_body, delete_body, rebuild_body, lookup_body, update_body,
  update_rindex, lease_init, paxos_lease_init, init_writes, wrote, free_buf; cbn [fst snd negb andb app].

Lemma held_app r a b : held r (a ++ b) = held r a + held r b.
Proof. induction a as [|[q|q|q|w] a IH]; cbn; lia. Qed.
Lemma writes_app a b : writes (a ++ b) = writes a ++ writes b.
Proof. induction a as [|[q|q|q|w] a IH]; cbn; congruence. Qed.

Definition prefix (a b : list what) : Prop := exists c, b = a ++ c.
Ltac pfx := match goal with
  | |- prefix [] _ => eexists; reflexivity
  | |- prefix [_] _ => eexists; reflexivity
  | |- prefix [_; _] _ => exists []; reflexivity
  end.
Ltac same_n := cbn [held same]; repeat match goal with |- context [if ?b then _ else _] => destruct b end; lia.
Ltac done_case :=
  eexists; split; [reflexivity|]; split; [intros [| |?n| |?n]; same_n|]; split; [intros ?; cbn [writes]; (reflexivity || (exfalso; lia))|cbn [writes]; pfx].


Ltac open_in i :=
  destruct i as [op bg [hm hi hc] t0 t1 acq [rm ri] se [ns nm ni] [um ui] sz me io al bc df nse].
Ltac fields := cbn [c_open c_begin c_hdr c_tok0 c_tok1 c_acq c_read c_search c_init c_upd c_sizes c_mem c_io c_aligned
    c_badcmd c_diff c_needs_search h_mem h_io h_chk r_mem r_io n_sizes n_mem n_io u_mem u_io] in *; cbn [fst snd negb andb app];
  unfold SANLK_AIO_TIMEOUT, SANLK_RINDEX_OFFSET, SANLK_RINDEX_DIFF, ENOMEM, EINVAL in *.

Theorem C71_partial : forall c i, c <> Format -> good i -> exists rv,
  fst (exec c i) = Some rv /\ (forall r, held r (snd (exec c i)) = 0) /\
  (0 <= rv -> writes (snd (exec c i)) = needs c) /\ prefix (writes (snd (exec c i))) (needs c).
Proof.
  intros c i NF [R U M N S A]. open_in i. cbn in R, U, M, N, S, A. subst.
  destruct c as [| | |[]|[] []|[]]; try congruence; clear NF; go; fields;
    cases; hyps; try (exfalso; lia); done_case.
Qed.

Theorem C71_format_partial : forall i, good_format i -> n_mem (c_init i) = 0 -> n_sizes (c_init i) <= 0 -> exists rv,
  fst (exec Format i) = Some rv /\ (forall r, held r (snd (exec Format i)) = 0) /\
  (0 <= rv -> writes (snd (exec Format i)) = needs Format) /\ prefix (writes (snd (exec Format i))) (needs Format).
Proof.
  intros i [R U M] N S. open_in i. cbn in R, U, M, N, S. subst. go; fields; cases; hyps; try (exfalso; lia); done_case.
Qed.

(* Whatever fails: a command that returns has released the index lease, cleared the mark of the operation, freed the
   tokens, and closed the disk (format only if the flags were good). *)
Theorem C71_locks_given_back : forall c i rv, fst (exec c i) = Some rv ->
  held RLease (snd (exec c i)) = 0 /\ held ROp (snd (exec c i)) = 0 /\ (forall n, held (RTok n) (snd (exec c i)) = 0) /\
  (c <> Format \/ c_sizes i = 0 -> held RDisk (snd (exec c i)) = 0).
Proof.
  intros c i rv. open_in i. destruct c as [| | |[]|[] []|[]]; go; fields; cases; hyps; intros E; try discriminate E; clear E;
    (split; [same_n|split; [same_n|split; [intros n; same_n|intros [Q|Q]; try congruence; try same_n]]]).
Qed.

(* Create, delete and rebuild write only while they hold the index lease and the mark of the operation. *)
Definition locked_writes (t : list ev) : Prop :=
  forall a w b, t = a ++ Wr w :: b -> held RLease a = 1 /\ held ROp a = 1.
Fixpoint locked_from (l o : Z) (t : list ev) : bool :=
  match t with
  | [] => true
  | Get q :: t => locked_from (l + if same q RLease then 1 else 0) (o + if same q ROp then 1 else 0) t
  | Put q :: t | Kept q :: t => locked_from (l - if same q RLease then 1 else 0) (o - if same q ROp then 1 else 0) t
  | Wr _ :: t => (l =? 1) && (o =? 1) && locked_from l o t
  end.
Lemma locked_from_ok t : forall l o, locked_from l o t = true ->
  forall a w b, t = a ++ Wr w :: b -> l + held RLease a = 1 /\ o + held ROp a = 1.
Proof.
  induction t as [|e t IH]; intros l o L a w b E; [destruct a; discriminate|].
  destruct a as [|x a].
  - injection E as -> ->. cbn in L. cbn [held]. rewrite !andb_true_iff, !Z.eqb_eq in L. lia.
  - injection E as -> ->. destruct x as [q|q|q|x]; cbn [locked_from held] in *;
      [apply (IH _ _) with (a := a) (w := w) (b := b) in L..|]; auto.
    1-3: destruct (same q RLease), (same q ROp); lia.
    rewrite !andb_true_iff in L. destruct L as [_ L]. eapply IH in L; eauto.
Qed.

Theorem C71_written_under_lease : forall c i, c = Create \/ c = Delete \/ c = Rebuild false ->
  locked_writes (snd (exec c i)).
Proof.
  intros c i C. enough (L : locked_from 0 0 (snd (exec c i)) = true).
  { intros a w b E. destruct (locked_from_ok _ _ _ L a w b E). lia. }
  open_in i. destruct C as [->|[->| ->]]; go; fields; cases; reflexivity.
Qed.

(* What counts as written was written: the I/O did not fail. *)
Definition io_of (w : what) (i : cin) : Z :=
  match w with
  | WHeader | WAll => c_io i
  | WIndexLease | WNewLease | WClearedLease => n_io (c_init i)
  | WEntry | WNoEntry => u_io (c_upd i)
  end.
Theorem C71_written : forall c i w, In w (writes (snd (exec c i))) -> 0 <= io_of w i.
Proof.
  intros c i w. open_in i. destruct c as [| | |[]|[] []|[]]; go; fields; cases; hyps; cbn [writes In]; intros J;
    repeat destruct J as [<-|J]; try contradiction; cbn [io_of c_io c_init c_upd n_io u_io]; assumption || lia.
Qed.

(* ---- refutations ---- *)
Definition fine : cin :=
  mkC 0 0 (mkHdr 0 0 0) true true 0 (mkRead 0 0) 0 (mkInit 0 0 0) (mkUpd 0 0) 0 0 0 true false false true.
Definition no_mem_update : cin :=
  mkC 0 0 (mkHdr 0 0 0) true true 0 (mkRead 0 0) 0 (mkInit 0 0 0) (mkUpd 12 0) 0 0 0 true false false true.
Definition no_mem_init : cin :=
  mkC 0 0 (mkHdr 0 0 0) true true 0 (mkRead 0 0) 0 (mkInit 0 12 0) (mkUpd 0 0) 0 0 0 true false false true.
Definition no_mem_read : cin :=
  mkC 0 0 (mkHdr 0 0 0) true true 0 (mkRead 12 0) 0 (mkInit 0 0 0) (mkUpd 0 0) 0 0 0 true false false true.
Definition bad_flags : cin :=
  mkC 0 0 (mkHdr 0 0 0) true true 0 (mkRead 0 0) 0 (mkInit 0 0 0) (mkUpd 0 0) (-22) 0 0 true false false true.
Definition misaligned : cin :=
  mkC 0 0 (mkHdr 0 0 0) true true 0 (mkRead 0 0) 0 (mkInit 0 0 0) (mkUpd 0 0) 0 0 0 false false false true.
Definition init_eio : cin :=
  mkC 0 0 (mkHdr 0 0 0) true true 0 (mkRead 0 0) 0 (mkInit 0 0 (-5)) (mkUpd 0 0) 0 0 0 true false false true.
Definition init_timeout : cin :=
  mkC 0 0 (mkHdr 0 0 0) true true 0 (mkRead 0 0) 0 (mkInit 0 0 (-202)) (mkUpd 0 0) 0 0 0 true false false true.

Theorem C71_refuted : ~ C71_statement.
Proof.
  intros H. destruct (H Create no_mem_update) as (rv & E & _ & W).
  cbv in E. injection E as <-. cbv in W. specialize (W ltac:(discriminate)). discriminate W.
Qed.

(* memory runs out: reported as success *)
Theorem C71_success_without_write_refuted :
  (fst (exec Create no_mem_update) = Some 0 /\ writes (snd (exec Create no_mem_update)) = [WNewLease]) /\
  (fst (exec Delete no_mem_update) = Some 0 /\ writes (snd (exec Delete no_mem_update)) = [WClearedLease]) /\
  (fst (exec Create no_mem_init) = Some 0 /\ writes (snd (exec Create no_mem_init)) = [WEntry]) /\
  (fst (exec Delete no_mem_init) = Some 0 /\ writes (snd (exec Delete no_mem_init)) = [WNoEntry]) /\
  (fst (exec Format no_mem_init) = Some 0 /\ writes (snd (exec Format no_mem_init)) = [WHeader]) /\
  (fst (exec (Update false false) no_mem_update) = Some 0 /\ writes (snd (exec (Update false false) no_mem_update)) = []).
Proof. repeat split; reflexivity. Qed.

(* memory runs out in read_rindex: a null pointer is used, with the index lease held *)
Theorem C71_null_refuted : forall c, c = Create \/ c = Delete \/ c = Rebuild false ->
  fst (exec c no_mem_read) = None /\ held RLease (snd (exec c no_mem_read)) = 1.
Proof. intros c [->|[->| ->]]; split; reflexivity. Qed.

(* a file descriptor and buffers are lost *)
Theorem C71_leak_refuted :
  held RDisk (snd (exec Format bad_flags)) = 1 /\
  (forall n, held (RBuf 7) (snd (exec (Lookup n) misaligned)) = 1) /\
  (forall n r, held (RBuf 7) (snd (exec (Update n r) misaligned)) = 1) /\
  held (RBuf 9) (snd (exec Create init_eio)) = 1 /\
  (fst (exec Format init_timeout) = Some SANLK_AIO_TIMEOUT /\
   In (Kept (RBuf 5)) (snd (exec Format init_timeout)) /\ writes (snd (exec Format init_timeout)) = [WHeader]).
Proof.
  split; [reflexivity|]. split; [intros []; reflexivity|]. split; [intros [] []; reflexivity|].
  split; [reflexivity|]. split; [reflexivity|]. split; [cbn; tauto|reflexivity].
Qed.

(* update writes an entry without the index lease: two hosts can overwrite each other's entries (sanlock.8:301
   says that it should not normally be used) *)
Theorem C71_update_unlocked_refuted : ~ locked_writes (snd (exec (Update false false) fine)).
Proof.
  intros H. specialize (H [Get RDisk; Get ROp; Get (RBuf 6); Put (RBuf 6); Get (RBuf 7); Get (RBuf 8)] WEntry
    [Put (RBuf 8); Put (RBuf 7); Put ROp; Put RDisk] eq_refl). destruct H as [H _]. cbv in H. discriminate H.
Qed.

(* ---- the hypotheses are met ---- *)
Example C71_nonvacuous :
  good fine /\ good_format fine /\ fst (exec Create fine) = Some 0 /\
  snd (exec Create fine) =
    [Get RDisk; Get ROp; Get (RBuf 6); Put (RBuf 6); Get (RTok 0); Get (RTok 1); Get RLease; Get (RBuf 7);
     Get (RBuf 9); Wr WNewLease; Put (RBuf 9); Get (RBuf 8); Wr WEntry; Put (RBuf 8); Put (RBuf 7);
     Put RLease; Put (RTok 0); Put (RTok 1); Put ROp; Put RDisk] /\
  good init_timeout /\ fst (exec Delete init_timeout) = Some (-202) /\
  writes (snd (exec Delete init_timeout)) = [WNoEntry].
Proof. repeat split; try reflexivity; cbn; lia. Qed.

Print Assumptions C71_partial.
Print Assumptions C71_written.
Print Assumptions C71_format_partial.
Print Assumptions C71_locks_given_back.
Print Assumptions C71_written_under_lease.
Print Assumptions C71_refuted.
Print Assumptions C71_success_without_write_refuted.
Print Assumptions C71_null_refuted.
Print Assumptions C71_leak_refuted.
Print Assumptions C71_update_unlocked_refuted.
