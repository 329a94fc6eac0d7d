(* C25: a pending host event is never silently replaced. *)
From Coq Require Import List NArith ZArith Lia Bool ZifyBool ZifyN.
From Verif Require Import Bytes Crc Bitmap HostEvent.
Import ListNotations.
Open Scope N_scope.

Definition plain (fl : evflags) : Prop :=
  ef_clear_event fl = false /\ ef_clear_hostid fl = false /\ ef_replace fl = false.

(* one call: EBUSY and nothing at all changes *)
Theorem C25_busy_partial :
  forall secs st now fl he,
    plain fl ->
    1 <= he_host_id he <= DEFAULT_MAX_HOSTS ->
    he_host_id he <= N.of_nat (length (ev_bits st)) ->
    now - ev_time st < secs ->
    he_event (ev_event st) <> 0 -> he_event he <> 0 ->
    he_event he <> he_event (ev_event st) ->
    set_event secs st now fl he = (EvEBUSY, st).
Proof.
  intros secs st now fl he (F1 & F2 & F3) H1 H2 Hn E1 E2 E3. unfold set_event.
  replace ((he_host_id he =? 0) || (DEFAULT_MAX_HOSTS <? he_host_id he)) with false by lia.
  replace (N.of_nat (length (ev_bits st)) <? he_host_id he) with false by lia.
  rewrite F1, F2, F3.
  assert (X : he_event (fill_generation st fl he) = he_event he).
  { unfold fill_generation. destruct (_ && _); reflexivity. }
  rewrite X.
  replace ((now - ev_time st <? secs) && negb (he_event (ev_event st) =? 0) &&
            negb (he_event he =? 0) && negb (he_event (ev_event st) =? he_event he)) with true by lia.
  reflexivity.
Qed.

(* an operation that, by its flags or by carrying the same (or no) event
   number, is allowed to touch the pending event [e] *)
Definition may_replace (e : N) (op : evop) : Prop :=
  match op with
  | OpSet _ fl he => ef_clear_event fl = true \/
                     (ef_clear_hostid fl = false /\
                      (ef_replace fl = true \/ he_event he = e \/ he_event he = 0))
  | _ => False
  end.

(* all histories: an event stays the published one, with its data, until its
   period has passed or an operation of the kind above is made *)
Theorem C25_pending_kept_partial :
  forall secs own ops st,
    he_event (ev_event st) <> 0 ->
    (forall op, In op ops -> op_time op - ev_time st < secs /\ ~ may_replace (he_event (ev_event st)) op) ->
    ev_event (ev_run secs own st ops) = ev_event st.
Proof.
  intros secs own ops. induction ops as [|op ops IH]; intros st E H; [reflexivity|].
  unfold ev_run. cbn [fold_left]. fold (ev_run secs own (ev_step secs own st op) ops).
  assert (S : ev_event (ev_step secs own st op) = ev_event st /\
              ev_time (ev_step secs own st op) = ev_time st).
  { destruct (H op (or_introl eq_refl)) as [Ht Hr]. destruct op as [now fl he|now h|now]; cbn [ev_step].
    - cbn in Ht, Hr. unfold set_event.
      destruct ((he_host_id he =? 0) || (DEFAULT_MAX_HOSTS <? he_host_id he)); [auto|].
      destruct (N.of_nat (length (ev_bits st)) <? he_host_id he); [auto|].
      assert (X : he_event (fill_generation st fl he) = he_event he).
      { unfold fill_generation. destruct (_ && _); reflexivity. }
      destruct (ef_clear_event fl); [exfalso; apply Hr; auto|].
      destruct (ef_clear_hostid fl); [auto|].
      destruct (ef_replace fl); [exfalso; apply Hr; auto|].
      rewrite X.
      destruct ((now - ev_time st <? secs) && negb (he_event (ev_event st) =? 0) &&
            negb (he_event he =? 0) && negb (he_event (ev_event st) =? he_event he)) eqn:B; [auto|].
      exfalso. apply Hr. right. split; auto. right. lia.
    - unfold request_bit. destruct (_ || _); auto.
    - unfold publish. destruct create_bitmap. auto. }
  destruct S as [S1 S2]. rewrite IH; rewrite ?S1, ?S2; auto.
  intros op' I. apply H. cbn. auto.
Qed.

(* the full statement; refuted because only the event number is compared:
   a set with the same number but other data (or another generation) and a set
   with number 0 replace the pending event *)
Definition C25_statement : Prop :=
  forall secs st now fl he,
    plain fl ->
    1 <= he_host_id he <= DEFAULT_MAX_HOSTS ->
    he_host_id he <= N.of_nat (length (ev_bits st)) ->
    now - ev_time st < secs -> he_event (ev_event st) <> 0 ->
    (he_event he, he_data he) <> (he_event (ev_event st), he_data (ev_event st)) ->
    set_event secs st now fl he = (EvEBUSY, st).

Definition no_flags := mkEf false false false false false.
Definition w_st := snd (set_event 60 (ev_init 2000 []) 10 no_flags (mkHe 1 0 7 100)).

Theorem C25_refuted : ~ C25_statement.
Proof.
  intros H. specialize (H 60 w_st 11 no_flags (mkHe 2 0 7 200)).
  assert (X : fst (set_event 60 w_st 11 no_flags (mkHe 2 0 7 200)) = EvOk) by (vm_compute; reflexivity).
  rewrite H in X; [discriminate|..].
  - repeat split.
  - unfold DEFAULT_MAX_HOSTS. cbn. lia.
  - vm_compute. discriminate.
  - vm_compute. reflexivity.
  - vm_compute. discriminate.
  - vm_compute. discriminate.
Qed.

(* what host 1 then receives: the other call's data *)
Theorem C25_host_gets_other_data :
  receives 1 (snd (publish 60 3 w_st 12)) = Some (0, 7, 100) /\
  receives 1 (snd (publish 60 3 (ev_run 60 3 w_st [OpSet 11 no_flags (mkHe 2 0 7 200)]) 12)) = Some (0, 7, 200).
Proof. vm_compute. auto. Qed.

Example C25_nonvacuous :
  set_event 60 w_st 69 no_flags (mkHe 2 0 8 200) = (EvEBUSY, w_st) /\
  fst (set_event 60 w_st 70 no_flags (mkHe 2 0 8 200)) = EvOk /\
  he_event (ev_event w_st) = 7.
Proof. vm_compute. auto. Qed.

Print Assumptions C25_busy_partial.
Print Assumptions C25_pending_kept_partial.
Print Assumptions C25_refuted.
Print Assumptions C25_host_gets_other_data.
