(* C86: a list of lockspaces or hosts that a client is given is complete and right. *)
From Coq Require Import List NArith ZArith Lia Bool ZifyBool ZifyN Sorted.
From Verif Require Import Bytes Codec Leader Lockspaces HostStatus Sizes Reports.
Import ListNotations.
Open Scope N_scope.

(* ---- specification ---- *)
(* one entry per lockspace: those in use, then those being removed, then those being added *)
Definition right_list (st : spaces) (l : list ls_entry) : Prop :=
  exists a b c, l = a ++ b ++ c /\
  Forall2 (fun sp e => e = mkLsE (firstn 48 (sp_name sp)) (sp_path sp) (sp_offset sp) (sp_host_id sp) 0) (s_spaces st) a /\
  Forall2 (fun sp e => e = mkLsE (firstn 48 (sp_name sp)) (sp_path sp) (sp_offset sp) (sp_host_id sp) LSF_REM) (s_rem st) b /\
  Forall2 (fun sp e => e = mkLsE (firstn 48 (sp_name sp)) (sp_path sp) (sp_offset sp) (sp_host_id sp) LSF_ADD) (s_add st) c.

Definition total (st : spaces) : nat := length (s_spaces st) + length (s_rem st) + length (s_add st).

(* the hosts asked for: all that have a lease, or the one *)
Definition wanted (hs : nat -> hstatus) (max_hosts : nat) (asked id : N) : Prop :=
  1 <= id /\ id <= N.of_nat max_hosts /\
  (if asked =? 0 then hs_timestamp (hs (N.to_nat (id - 1))) <> 0 else id = asked).

(* success means the complete list; it is what the library promises *)
Definition C86_lockspaces_statement : Prop := forall st mem rv n l,
  client_list mem (get_lockspaces st) = (rv, n, l) -> exists x, l = Some x /\ right_list st x.
Definition C86_memory_statement : Prop := forall st mem n l,
  client_list mem (get_lockspaces st) = (0%Z, n, l) -> exists x, l = Some x.

(* ---- proofs ---- *)
Lemma fill_fits {B} sz max (l : list B) : forall len,
  len + sz * N.of_nat (length l) <= max -> fill sz max len l = (l, N.of_nat (length l), false).
Proof.
  induction l as [|x r IH]; intros len H; [reflexivity|].
  cbn [fill length] in *. destruct (max <? len + sz) eqn:E; [lia|].
  rewrite IH by lia. f_equal. f_equal. lia.
Qed.

Lemma fill_count {B} sz max (l : list B) : forall len, snd (fst (fill sz max len l)) = N.of_nat (length l).
Proof.
  induction l as [|x r IH]; intros len; [reflexivity|]. cbn [fill length].
  destruct (max <? len + sz).
  - specialize (IH len). destruct (fill sz max len r) as ((o, c), f). cbn in *. lia.
  - specialize (IH (len + sz)). destruct (fill sz max (len + sz) r) as ((o, c), f). cbn in *. lia.
Qed.

Lemma fill_full {B} sz max (l : list B) : forall len, 0 < sz -> len <= max -> max < len + sz * N.of_nat (length l) ->
  exists o, fill sz max len l = (o, N.of_nat (length l), true) /\ (length o < length l)%nat.
Proof.
  induction l as [|x r IH]; intros len P LE H; [cbn in H; lia|]. cbn [fill length] in *.
  destruct (max <? len + sz) eqn:E.
  - assert (C := fill_count sz max r len).
    assert (L : (length (fst (fst (fill sz max len r))) <= length r)%nat).
    { clear. revert len. induction r as [|y q IH]; intros len; [cbn; lia|]. cbn [fill length].
      destruct (max <? len + sz).
      - specialize (IH len). destruct (fill sz max len q) as ((o, c), f). cbn in *. lia.
      - specialize (IH (len + sz)). destruct (fill sz max (len + sz) q) as ((o, c), f). cbn in *. lia. }
    destruct (fill sz max len r) as ((o, c), f). cbn in *. exists o. split; [f_equal; f_equal; lia|lia].
  - destruct (IH (len + sz)) as (o & R & L); [lia|lia|lia|]. rewrite R. exists (x :: o). cbn. split; [f_equal; f_equal; lia|lia].
Qed.

Lemma read_all {B} (l : list B) : read_n (length l) l = Some l.
Proof. induction l as [|x r IH]; [reflexivity|]. cbn. rewrite IH. reflexivity. Qed.
Lemma read_short {B} (l : list B) : forall n, (length l < n)%nat -> read_n n l = None.
Proof.
  induction l as [|x r IH]; intros n H; destruct n; cbn in *; try lia; [reflexivity|]. rewrite IH by lia. reflexivity.
Qed.

Lemma items_right st : right_list st (ls_items st).
Proof.
  exists (map (entry 0) (s_spaces st)), (map (entry LSF_REM) (s_rem st)), (map (entry LSF_ADD) (s_add st)).
  split; [reflexivity|].
  assert (F : forall fl l, Forall2 (fun sp e => e = mkLsE (firstn 48 (sp_name sp)) (sp_path sp) (sp_offset sp) (sp_host_id sp) fl) l (map (entry fl) l))
    by (intros fl l; induction l; cbn; constructor; auto).
  auto.
Qed.
Lemma items_length st : length (ls_items st) = total st.
Proof. unfold ls_items, total. rewrite !app_length, !map_length. lia. Qed.

(* up to 949 lockspaces: the complete list *)
Theorem C86_lockspaces_partial : forall st, (total st <= 949)%nat ->
  exists l, client_list true (get_lockspaces st) = (0%Z, Some (N.of_nat (total st)), Some l) /\ right_list st l.
Proof.
  intros st H. exists (ls_items st). split; [|apply items_right]. unfold get_lockspaces.
  rewrite fill_fits by (rewrite items_length; unfold SZ_LOCKSPACE, LOG_DUMP_SIZE; lia).
  unfold client_list. rewrite Nat2N.id, read_all, items_length. reflexivity.
Qed.
Print Assumptions C86_lockspaces_partial.

(* and never an incomplete one: above that the library returns -1 and no list *)
Theorem C86_lockspaces_many : forall st, (949 < total st)%nat ->
  client_list true (get_lockspaces st) = ((-1)%Z, Some (N.of_nat (total st)), None).
Proof.
  intros st H. unfold get_lockspaces.
  destruct (fill_full SZ_LOCKSPACE LOG_DUMP_SIZE (ls_items st) 0) as (o & R & L);
    [reflexivity|unfold LOG_DUMP_SIZE; lia|rewrite items_length; unfold SZ_LOCKSPACE, LOG_DUMP_SIZE; lia|].
  rewrite R. unfold client_list. cbn [Z.ltb Z.eqb andb negb]. rewrite Nat2N.id, read_short by exact L.
  rewrite items_length. reflexivity.
Qed.
Print Assumptions C86_lockspaces_many.

Theorem C86_lockspaces_refuted : ~ C86_lockspaces_statement.
Proof.
  intros H.
  set (st := mkSpaces (repeat (mkSpace [97] [47] 0 1 1 false false false) 950) [] [] 2).
  assert (M := C86_lockspaces_many st). assert (T : total st = 950%nat) by (unfold total, st; cbn; reflexivity).
  specialize (M ltac:(rewrite T; lia)). destruct (H _ _ _ _ _ M) as (x & X & _). discriminate.
Qed.
Print Assumptions C86_lockspaces_refuted.

(* without memory for the list the library returns success, a count, and no list *)
Theorem C86_memory_refuted : ~ C86_memory_statement.
Proof. intros H. destruct (H ls_init false (Some 0) None eq_refl) as (x & X). discriminate. Qed.
Print Assumptions C86_memory_refuted.

(* ---- hosts ---- *)
Definition hitem (own fire : N) (now : nat -> N) (hs : nat -> hstatus) (asked : N) :=
  fun i =>
    if negb (asked =? 0) && negb (asked =? N.of_nat i + 1) then []
    else if (asked =? 0) && (hs_timestamp (hs i) =? 0) then []
    else [mkHostE (N.of_nat i + 1) (hs_owner_generation (hs i)) (hs_timestamp (hs i)) (hs_io_timeout (hs i))
                  (get_host_flag own fire (now i) (hs i))].

Lemma items_le own fire now hs asked : forall n k,
  (length (flat_map (hitem own fire now hs asked) (seq k n)) <= n)%nat.
Proof.
  induction n as [|n IH]; intros k; [cbn; lia|]. cbn [seq flat_map]. rewrite app_length. specialize (IH (S k)). unfold hitem at 1.
  destruct (negb (asked =? 0) && negb (asked =? N.of_nat k + 1)); [cbn; lia|].
  destruct ((asked =? 0) && (hs_timestamp (hs k) =? 0)); cbn [length]; lia.
Qed.

Lemma host_in own fire now max hs asked e :
  In e (host_items own fire now max hs asked) <->
  exists i, (i < max)%nat /\ wanted hs max asked (N.of_nat i + 1) /\
    e = mkHostE (N.of_nat i + 1) (hs_owner_generation (hs i)) (hs_timestamp (hs i)) (hs_io_timeout (hs i))
                (get_host_flag own fire (now i) (hs i)).
Proof.
  unfold host_items. rewrite in_flat_map. unfold wanted.
  assert (E : forall i, N.to_nat (N.of_nat i + 1 - 1) = i) by (intros; lia).
  split.
  - intros (i & I & H). apply in_seq in I. exists i. rewrite E. split; [lia|].
    destruct (asked =? 0) eqn:A; cbn [negb andb] in H.
    + destruct (hs_timestamp (hs i) =? 0) eqn:T; [destruct H|]. destruct H as [<-|[]].
      split; [|reflexivity]. repeat split; try lia.
    + destruct (asked =? N.of_nat i + 1) eqn:Q; cbn in H; [|destruct H]. destruct H as [<-|[]].
      split; [|reflexivity]. repeat split; try lia.
  - intros (i & L & (_ & _ & W) & ->). rewrite E in W. exists i. split; [apply in_seq; lia|].
    destruct (asked =? 0) eqn:A; cbn [negb andb].
    + apply N.eqb_neq in W. rewrite W. left. reflexivity.
    + rewrite <- W, N.eqb_refl. cbn. left. reflexivity.
Qed.

Lemma host_sorted own fire now hs asked : forall n k,
  let l := map he_id (flat_map (hitem own fire now hs asked) (seq k n)) in
  StronglySorted N.lt l /\ Forall (fun j => N.of_nat k < j) l.
Proof.
  induction n as [|n IH]; intros k; [split; constructor|]. cbn [seq flat_map]. destruct (IH (S k)) as (S1 & F1).
  assert (F2 : Forall (fun j => N.of_nat k < j) (map he_id (flat_map (hitem own fire now hs asked) (seq (S k) n)))).
  { eapply Forall_impl; [|exact F1]. cbn. intros. lia. }
  unfold hitem at 1 3. destruct (negb (asked =? 0) && negb (asked =? N.of_nat k + 1)); [split; assumption|].
  destruct ((asked =? 0) && (hs_timestamp (hs k) =? 0)); [split; assumption|]. cbn. split.
  - constructor; [exact S1|]. eapply Forall_impl; [|exact F1]. cbn. intros. lia.
  - constructor; [lia|exact F2].
Qed.

(* any lockspace sanlock can use: an error if it is not in use or was not checked yet,
   otherwise every host asked for, once, in order, with what the last check found *)
Theorem C86_hosts : forall st name fire now hs asked sector align max,
  Z.of_nat max = size_to_max_hosts sector align ->
  client_list true (get_hosts st name fire now max hs asked) =
    match search_space (Some name) None 0 [s_spaces st] with
    | None => ((-2)%Z, None, None)
    | Some sp =>
        if hs_last_check (hs 0%nat) =? 0 then ((-11)%Z, None, None)
        else let l := host_items (sp_host_id sp) fire now max hs asked in (0%Z, Some (N.of_nat (length l)), Some l)
    end /\
  forall own, let l := host_items own fire now max hs asked in
    StronglySorted N.lt (map he_id l) /\
    (forall id, wanted hs max asked id <-> In id (map he_id l)) /\
    (forall e, In e l -> exists i, he_id e = N.of_nat i + 1 /\ he_gen e = hs_owner_generation (hs i) /\
        he_ts e = hs_timestamp (hs i) /\ he_io e = hs_io_timeout (hs i) /\ he_flag e = get_host_flag own fire (now i) (hs i)).
Proof.
  intros st name fire now hs asked sector align max M.
  assert (LE : (max <= 2000)%nat).
  { unfold size_to_max_hosts in M. repeat match type of M with context [if ?b then _ else _] => destruct b end; lia. }
  split.
  - unfold get_hosts. destruct (search_space _ _ _ _) as [sp|]; [|reflexivity].
    destruct (_ =? 0); [reflexivity|].
    assert (L := items_le (sp_host_id sp) fire now hs asked max 0). change (flat_map _ _) with (host_items (sp_host_id sp) fire now max hs asked) in L.
    rewrite fill_fits by (unfold SZ_HOST, LOG_DUMP_SIZE; lia).
    unfold client_list. rewrite Nat2N.id, read_all. reflexivity.
  - intros own l. split; [|split].
    + exact (proj1 (host_sorted own fire now hs asked max 0)).
    + intros id. unfold l. split.
      * intros W. apply in_map_iff. set (i := N.to_nat (id - 1)).
        assert (ID : id = N.of_nat i + 1) by (unfold i; destruct W; lia).
        exists (mkHostE (N.of_nat i + 1) (hs_owner_generation (hs i)) (hs_timestamp (hs i)) (hs_io_timeout (hs i))
                (get_host_flag own fire (now i) (hs i))).
        split; [cbn; lia|]. apply host_in. exists i. split; [unfold i; destruct W as (_ & W & _); lia|].
        split; [rewrite <- ID; exact W|reflexivity].
      * intros I. apply in_map_iff in I. destruct I as (e & <- & I). apply host_in in I.
        destruct I as (i & _ & W & ->). exact W.
    + intros e I. apply host_in in I. destruct I as (i & _ & _ & ->). exists i. repeat split.
Qed.
Print Assumptions C86_hosts.

(* two lockspaces, one of them being removed; three of four hosts have a lease *)
Definition ex_st : spaces :=
  mkSpaces [mkSpace [97] [47; 97] 0 3 1 false false false] [] [mkSpace [98] [47; 98] 512 4 2 false true false] 3.
Definition ex_hs (i : nat) : hstatus :=
  match i with
  | 0%nat => mkHs 10 100 95 1 7 90 10
  | 1%nat => mkHs 10 100 10 2 1 5 10
  | 2%nat => mkHs 10 100 99 3 1 99 10
  | _ => mkHs 10 100 10 4 3 0 10
  end.
Example C86_nonvacuous :
  client_list true (get_lockspaces ex_st) = (0%Z, Some 2, Some [mkLsE [97] [47; 97] 0 3 0; mkLsE [98] [47; 98] 512 4 LSF_REM]) /\
  client_list true (get_hosts ex_st [97] 60 (fun _ => 100) 2000 ex_hs 0) =
    (0%Z, Some 3, Some [mkHostE 1 7 90 10 HLive; mkHostE 2 1 5 10 HFail; mkHostE 3 1 99 10 HLive]) /\
  client_list true (get_hosts ex_st [97] 60 (fun _ => 100) 2000 ex_hs 4) = (0%Z, Some 1, Some [mkHostE 4 3 0 10 HFree]) /\
  client_list true (get_hosts ex_st [98] 60 (fun _ => 100) 2000 ex_hs 4) = ((-2)%Z, None, None) /\
  Z.of_nat 2000 = size_to_max_hosts 512 ALIGN_SIZE_1M.
Proof. vm_compute. repeat split. Qed.
