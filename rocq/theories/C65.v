(* C65: sanlk-reset reports success only when the host has been reset, and it ends *)
From Coq Require Import List NArith ZArith Lia Bool ZifyBool ZifyN ZifyNat.
From Verif Require Import ResetTool.
Import ListNotations.
Open Scope Z_scope.

(* ---- specification ---- *)
(* What sanlk-reset learns, newest first: in lockspace i the host is reported dead, or it answered RESETTING. *)
Inductive fact := FDead (i : nat) (t : Z) | FResetting (i : nat) (t : Z).

Definition rep_facts (hosts : list N) (r : rin) : list fact :=
  flat_map (fun i => match ri_reps r i with
                     | Some p => match rp_state p with HDead => [FDead i (ri_now r)] | _ => [] end
                     | None => [] end) (seq 0 (length hosts)).
Definition ev_facts (hosts : list N) (r : rin) : list fact :=
  flat_map (fun e => match e with
                     | TGot i from ev =>
                         match nth_error hosts i with
                         | Some h => if (from =? h)%N && N.testbit ev 1 then [FResetting i (ri_now r)] else []
                         | None => [] end
                     | TLost _ => [] end) (rev (ri_evs r)).

(* The machine goes down at time down (lines 86-97, 503-524): at most 70 seconds after it answered RESETTING;
   and it is down when it is reported dead, provided that it protects resources (rm) or has answered
   RESETTING in that lockspace before. *)
Definition world (rm : bool) (down : Z) (h : list fact) : Prop :=
  (forall i t, In (FResetting i t) h -> down <= t + 70) /\
  (forall a i t b, h = a ++ FDead i t :: b -> rm = true \/ (exists t', In (FResetting i t') b) -> down <= t).

(* a run that has not ended: what was learnt, the time of the last round, the state *)
Inductive trun (rm : bool) (begin : Z) (hosts : list N) : list fact -> Z -> tst -> Prop :=
| tr_start : 0 <= begin -> trun rm begin hosts [] begin (tstart hosts)
| tr_round h t s r s' : trun rm begin hosts h t s -> t <= ri_now r < 2 ^ 63 -> round rm begin s r = Go s' ->
    trun rm begin hosts (ev_facts hosts r ++ rep_facts hosts r ++ h) (ri_now r) s'.

Definition C65_statement : Prop := forall rm begin hosts h t s r down,
  trun rm begin hosts h t s -> t <= ri_now r < 2 ^ 63 -> round rm begin s r = Success ->
  world rm down (rep_facts hosts r ++ h) -> down <= ri_now r.

(* after 300 seconds the command ends *)
Definition C65_ends_statement : Prop := forall rm begin hosts h t s r s',
  trun rm begin hosts h t s -> t <= ri_now r < 2 ^ 63 -> begin + 300 < ri_now r -> round rm begin s r <> Go s'.

(* "watchdog failed to fire" is said only if the host has renewed its lease more than 70 seconds after *)
Definition C65_alarm_statement : Prop := forall rm begin hosts h t s r,
  trun rm begin hosts h t s -> t <= ri_now r < 2 ^ 63 ->
  t_wdff (fst (reset_done rm (ri_now r) (ri_reps r) s)) = true ->
  exists l, In l (t_ls (fst (reset_done rm (ri_now r) (ri_reps r) s))) /\ l_beg_ts l + 70 < l_ts l.

(* ---- proofs ---- *)
Lemma imap_nth {A B C} (f : A -> B -> C) r l : forall k i,
  nth_error (imap f r k l) i = option_map (f (r (k + i)%nat)) (nth_error l i).
Proof.
  induction l as [|x l IH]; intros k i; [destruct i; reflexivity|].
  destruct i; cbn; [rewrite Nat.add_0_r; reflexivity|]. rewrite IH. replace (S k + i)%nat with (k + S i)%nat by lia. reflexivity.
Qed.
Lemma imap_len {A B C} (f : A -> B -> C) r l : forall k, length (imap f r k l) = length l.
Proof. induction l as [|x l IH]; intros k; cbn; [reflexivity|rewrite IH; reflexivity]. Qed.

Lemma upd_nth_gen i (f : ls -> ls) (l : list ls) : forall k j,
  nth_error ((fix go k l := match l with [] => [] | x :: r => (if Nat.eqb k i then f x else x) :: go (S k) r end) k l) j =
  option_map (fun x => if Nat.eqb (k + j) i then f x else x) (nth_error l j).
Proof.
  induction l as [|x l IH]; intros k j; [destruct j; reflexivity|].
  destruct j; cbn [nth_error option_map]; [rewrite Nat.add_0_r; reflexivity|]. rewrite IH. replace (S k + j)%nat with (k + S j)%nat by lia. reflexivity.
Qed.
Lemma upd_nth i f l j : nth_error (upd i f l) j = option_map (fun x => if Nat.eqb j i then f x else x) (nth_error l j).
Proof. unfold upd. rewrite upd_nth_gen. reflexivity. Qed.
Lemma upd_len_gen i (f : ls -> ls) (l : list ls) : forall k,
  length ((fix go k l := match l with [] => [] | x :: r => (if Nat.eqb k i then f x else x) :: go (S k) r end) k l) = length l.
Proof. induction l as [|x l IH]; intros k; [reflexivity|]. cbn [length]. rewrite IH. reflexivity. Qed.
Lemma upd_len i f l : length (upd i f l) = length l.
Proof. apply upd_len_gen. Qed.

(* what is known of lockspace i *)
Record Know (hosts : list N) (h : list fact) (t : Z) (i : nat) (l : ls) : Prop := {
  k_host : nth_error hosts i = Some (l_host l);
  k_res : l_resetting l = true -> exists u, In (FResetting i u) h /\ u <= t;
  k_beg : l_beg_local l <> 0 -> l_resetting l = true /\ 0 <= l_beg_local l <= t /\ exists u, In (FResetting i u) h /\ u <= l_beg_local l;
  k_dead : l_dead l = true -> exists u, In (FDead i u) h /\ u <= t;
  k_flag : l_flags l = HDead -> exists u, In (FDead i u) h /\ u <= t }.
Definition Inv (hosts : list N) (h : list fact) (t : Z) (s : tst) : Prop :=
  length (t_ls s) = length hosts /\ t_wdff s = false /\
  forall i l, nth_error (t_ls s) i = Some l -> Know hosts h t i l.

Lemma know_mono hosts h h' t t' i l : (forall f, In f h -> In f h') -> t <= t' -> Know hosts h t i l -> Know hosts h' t' i l.
Proof.
  intros I LE [K1 K2 K3 K4 K5]. split; [exact K1| | | |].
  - intros E. destruct (K2 E) as (u & P & Q). exists u. split; [apply I; exact P|lia].
  - intros E. destruct (K3 E) as (R & B & u & P & Q). split; [exact R|]. split; [lia|]. exists u. split; [apply I; exact P|lia].
  - intros E. destruct (K4 E) as (u & P & Q). exists u. split; [apply I; exact P|lia].
  - intros E. destruct (K5 E) as (u & P & Q). exists u. split; [apply I; exact P|lia].
Qed.

Lemma rep_fact hosts r i p : (i < length hosts)%nat -> ri_reps r i = Some p -> rp_state p = HDead ->
  In (FDead i (ri_now r)) (rep_facts hosts r).
Proof.
  intros L E D. unfold rep_facts. apply in_flat_map. exists i. split; [apply in_seq; lia|]. rewrite E, D. left; reflexivity.
Qed.

Lemma poll_know hosts h t r i l : Know hosts h t i l -> t <= ri_now r ->
  Know hosts (rep_facts hosts r ++ h) (ri_now r) i (poll_ls (ri_reps r i) l).
Proof.
  intros K LE. assert (K' := know_mono hosts h (rep_facts hosts r ++ h) t (ri_now r) i l
    ltac:(intros f I; apply in_or_app; right; exact I) LE K).
  unfold poll_ls. destruct (l_used l); [|exact K']. destruct (ri_reps r i) as [p|] eqn:E; [|exact K'].
  destruct K' as [K1 K2 K3 K4 K5]. split; cbn; auto.
  intros D. exists (ri_now r). split; [|lia]. apply in_or_app. left. eapply rep_fact; [|exact E|exact D].
  apply nth_error_Some. rewrite K1. discriminate.
Qed.

Lemma mark_know hosts h t i l : 0 <= t -> Know hosts h t i l -> Know hosts h t i (native_mark t l).
Proof.
  intros P K. unfold native_mark. destruct (l_used l && l_resetting l && (l_beg_local l =? 0)) eqn:E; [|exact K].
  destruct K as [K1 K2 K3 K4 K5]. split; cbn; auto. intros _.
  assert (R : l_resetting l = true) by (destruct (l_resetting l), (l_used l); cbn in E; congruence).
  split; [exact R|]. split; [lia|]. apply K2; exact R.
Qed.

Lemma status_know hosts h t i l : Know hosts h t i l -> Know hosts h t i (status_ls l).
Proof.
  intros K. unfold status_ls. destruct (l_used l); [|exact K]. destruct K as [K1 K2 K3 K4 K5]. split; cbn; auto.
  intros D. apply orb_prop in D. destruct D as [D|D]; [auto|]. apply K5. destruct (l_flags l); try discriminate; reflexivity.
Qed.

Definition evs_list (hosts : list N) (t : Z) (evs : list tev) : list fact :=
  flat_map (fun e => match e with
                     | TGot i from ev =>
                         match nth_error hosts i with
                         | Some h => if (from =? h)%N && N.testbit ev 1 then [FResetting i t] else []
                         | None => [] end
                     | TLost _ => [] end) evs.

Lemma tevent_inv hosts h t s e : Inv hosts h t s -> Inv hosts (evs_list hosts t [e] ++ h) t (tevent s e).
Proof.
  intros (L & W & K). destruct e as [i from ev|i]; cbn [tevent].
  - split; [cbn; rewrite upd_len; exact L|]. split; [exact W|]. intros j l E. cbn [t_ls] in E. rewrite upd_nth in E.
    destruct (nth_error (t_ls s) j) as [l0|] eqn:E0; [|discriminate]. cbn [option_map] in E. injection E as <-.
    assert (K0 := K j l0 E0).
    assert (KM := know_mono hosts h (evs_list hosts t [TGot i from ev] ++ h) t t j l0
      ltac:(intros f I; apply in_or_app; right; exact I) ltac:(lia) K0).
    destruct (Nat.eqb j i) eqn:EJ; [|exact KM]. apply Nat.eqb_eq in EJ. subst i.
    destruct (l_used l0 && (from =? l_host l0)%N && resetting_bit ev) eqn:EB; [|exact KM].
    destruct KM as [K1 K2 K3 K4 K5]. split; cbn [set_resetting l_host l_resetting l_beg_local l_dead l_flags]; auto.
    + intros _. exists t. split; [|lia]. apply in_or_app. left. unfold evs_list. cbn [flat_map]. rewrite K1.
      apply andb_prop in EB. destruct EB as [EB ER]. apply andb_prop in EB. destruct EB as [_ EF].
      unfold resetting_bit in ER. rewrite EF, ER. left; reflexivity.
    + intros B. destruct (K3 B) as (_ & B2 & B3). auto.
  - split; [cbn; rewrite upd_len; exact L|]. split; [exact W|]. intros j l E. cbn [t_ls] in E. rewrite upd_nth in E.
    destruct (nth_error (t_ls s) j) as [l0|] eqn:E0; [|discriminate]. cbn [option_map] in E. injection E as <-.
    assert (K0 := K j l0 E0). cbn [evs_list flat_map app].
    destruct (Nat.eqb j i); [|exact K0]. destruct K0 as [K1 K2 K3 K4 K5]. split; cbn; auto.
Qed.
Lemma evs_app hosts t a b : evs_list hosts t (a ++ b) = evs_list hosts t a ++ evs_list hosts t b.
Proof. apply flat_map_app. Qed.
Lemma tevents_inv hosts t evs : forall h s, Inv hosts h t s -> Inv hosts (evs_list hosts t (rev evs) ++ h) t (fold_left tevent evs s).
Proof.
  induction evs as [|e evs IH]; intros h s I; [exact I|]. cbn [fold_left rev]. rewrite evs_app, <- app_assoc.
  apply IH. apply tevent_inv. exact I.
Qed.

(* the state after the native check *)
Definition mid (native : bool) (now : Z) (reps : nat -> option rep) (l : list ls) : list ls :=
  let l1 := imap poll_ls reps 0 l in if native then map (native_mark now) l1 else l1.
Lemma mid_know hosts h t s r native : Inv hosts h t s -> 0 <= t <= ri_now r ->
  length (mid native (ri_now r) (ri_reps r) (t_ls s)) = length hosts /\
  forall i l, nth_error (mid native (ri_now r) (ri_reps r) (t_ls s)) i = Some l ->
    exists l0, nth_error (t_ls s) i = Some l0 /\
    l = (if native then native_mark (ri_now r) (poll_ls (ri_reps r i) l0) else poll_ls (ri_reps r i) l0) /\
    Know hosts (rep_facts hosts r ++ h) (ri_now r) i l.
Proof.
  intros (L & W & K) LE. unfold mid. cbn zeta. split; [destruct native; [rewrite map_length|]; rewrite imap_len; exact L|].
  intros i l E.
  assert (E2 : exists l0, nth_error (t_ls s) i = Some l0 /\
     l = (if native then native_mark (ri_now r) (poll_ls (ri_reps r i) l0) else poll_ls (ri_reps r i) l0)).
  { destruct native; [rewrite nth_error_map in E|]; rewrite imap_nth in E; destruct (nth_error (t_ls s) i) as [l0|]; try discriminate;
      cbn in E; injection E as <-; exists l0; split; reflexivity. }
  destruct E2 as (l0 & E0 & ->). exists l0. split; [exact E0|]. split; [reflexivity|].
  assert (P := poll_know hosts h t r i l0 (K i l0 E0) ltac:(lia)).
  destruct native; [apply mark_know; [lia|exact P]|exact P].
Qed.

Lemma reset_done_eq rm now reps s :
  let native := t_native s && negb (existsb (fun b => b) (imap native_off reps 0 (t_ls s))) in
  let l2 := mid native now reps (t_ls s) in
  let vs := if native then map (native_verdict now) l2 else [] in
  reset_done rm now reps s =
    if t_wdff s || existsb is_nfail vs then (mkT l2 native true, false)
    else (mkT (map status_ls l2) native false, existsb is_ndone vs || existsb (status_done rm) (map status_ls l2)).
Proof. reflexivity. Qed.

Lemma run_inv rm begin hosts h t s : trun rm begin hosts h t s -> 0 <= t /\ Inv hosts h t s.
Proof.
  induction 1 as [B|h t s r s' R [T IH] LE E].
  - split; [exact B|]. split; [apply map_length|]. split; [reflexivity|]. intros i l E. unfold tstart in E. cbn [t_ls] in E.
    rewrite nth_error_map in E. destruct (nth_error hosts i) as [x|] eqn:EH; [|discriminate]. injection E as <-.
    split; cbn; [exact EH|discriminate|intros C; exfalso; apply C; reflexivity|discriminate|discriminate].
  - split; [lia|]. unfold round in E. rewrite reset_done_eq in E.
    set (native := t_native s && negb (existsb (fun b => b) (imap native_off (ri_reps r) 0 (t_ls s)))) in *.
    destruct (mid_know hosts h t s r native IH ltac:(lia)) as (L2 & K2).
    set (l2 := mid native (ri_now r) (ri_reps r) (t_ls s)) in *. cbn zeta in E.
    set (vs := if native then map (native_verdict (ri_now r)) l2 else []) in *.
    destruct (t_wdff s || existsb is_nfail vs).
    + cbn in E. discriminate.
    + destruct (existsb is_ndone vs || existsb (status_done rm) (map status_ls l2)); [discriminate|].
      destruct (reset_fail (ri_now r) begin (mkT (map status_ls l2) native false)); [discriminate|].
      injection E as <-. rewrite app_assoc_reverse || idtac. apply tevents_inv.
      split; [cbn; rewrite map_length; exact L2|]. split; [reflexivity|]. intros i l E. cbn [t_ls] in E.
      rewrite nth_error_map in E. destruct (nth_error l2 i) as [l0|] eqn:E0; [|discriminate]. injection E as <-.
      apply status_know. destruct (K2 i l0 E0) as (_ & _ & _ & K). exact K.
Qed.

(* one lockspace: in a run that goes on it has not been seen dead *)
Lemma single_inv begin x h t s : trun false begin [x] h t s ->
  exists l, t_ls s = [l] /\ (l_used l = true -> l_dead l = false /\ l_flags l <> HDead).
Proof.
  induction 1 as [B|h t s r s' R IH LE E].
  - exists (start_ls x). split; [reflexivity|]. cbn. split; [reflexivity|discriminate].
  - destruct IH as (l & EL & K). unfold round in E. rewrite reset_done_eq, EL in E.
    set (native := t_native s && negb (existsb (fun b => b) (imap native_off (ri_reps r) 0 [l]))) in *. cbn zeta in E.
    assert (EM : exists l2, mid native (ri_now r) (ri_reps r) [l] = [l2]) by (unfold mid; cbn; destruct native; eexists; reflexivity).
    destruct EM as (l2 & EM). rewrite EM in E.
    destruct (t_wdff s || existsb is_nfail (if native then map (native_verdict (ri_now r)) [l2] else [])); [cbn in E; discriminate|].
    destruct (existsb is_ndone (if native then map (native_verdict (ri_now r)) [l2] else [])); [cbn in E; discriminate|].
    cbn [orb map existsb] in E. rewrite orb_false_r in E.
    destruct (status_done false (status_ls l2)) eqn:ED; [discriminate|].
    destruct (reset_fail (ri_now r) begin (mkT [status_ls l2] native false)) eqn:EF; [discriminate|]. injection E as <-.
    assert (G : l_used (status_ls l2) = true -> l_dead (status_ls l2) = false /\ l_flags (status_ls l2) <> HDead).
    { intros U. assert (D : l_dead (status_ls l2) = false).
      { destruct (l_dead (status_ls l2)) eqn:D; [exfalso|reflexivity]. unfold status_done in ED. rewrite U, D in ED. cbn [andb] in ED.
        unfold reset_fail in EF. cbn [t_wdff t_ls orb existsb] in EF. unfold ls_waits, ls_fails in EF. rewrite U, D, ED in EF.
        cbn [andb orb negb] in EF. discriminate. }
      split; [exact D|]. unfold status_ls in D, U |- *. destruct (l_used l2) eqn:EU; [|congruence]. cbn [l_dead l_flags] in *.
      apply orb_false_elim in D. destruct D as [_ D]. intros C. rewrite C in D. discriminate. }
    clear ED EF EM. generalize dependent (status_ls l2). intros l3 G.
    assert (AG : forall evs s0, (exists l, t_ls s0 = [l] /\ (l_used l = true -> l_dead l = false /\ l_flags l <> HDead)) ->
                 exists l, t_ls (fold_left tevent evs s0) = [l] /\ (l_used l = true -> l_dead l = false /\ l_flags l <> HDead)).
    { induction evs as [|e evs IHe]; intros s0 P; [exact P|]. cbn [fold_left]. apply IHe. destruct P as (l0 & E0 & P).
      destruct e as [i from ev|i]; cbn [tevent t_ls]; rewrite E0; unfold upd.
      - destruct i; [|exists l0; split; [reflexivity|exact P]]. cbn [Nat.eqb].
        destruct (l_used l0 && (from =? l_host l0)%N && resetting_bit ev); [|exists l0; split; [reflexivity|exact P]].
        exists (set_resetting l0). split; [reflexivity|]. exact P.
      - destruct i; [|exists l0; split; [reflexivity|exact P]]. exists (unregister l0). split; [reflexivity|]. cbn. discriminate. }
    apply AG. exists l3. split; [reflexivity|exact G].
Qed.

(* each report of death comes after the answer in that lockspace *)
Definition dead_after (h : list fact) : Prop := forall a i t b, h = a ++ FDead i t :: b -> exists t', In (FResetting i t') b.

Theorem C65_partial : forall rm begin hosts h t s r down,
  trun rm begin hosts h t s -> t <= ri_now r < 2 ^ 63 -> round rm begin s r = Success ->
  world rm down (rep_facts hosts r ++ h) ->
  rm = true \/ length hosts = 1%nat \/ dead_after (rep_facts hosts r ++ h) -> down <= ri_now r.
Proof.
  intros rm begin hosts h t s r down R LE E [W1 W2] CASE. destruct (run_inv _ _ _ _ _ _ R) as [T IV].
  unfold round in E. rewrite reset_done_eq in E.
  set (native := t_native s && negb (existsb (fun b => b) (imap native_off (ri_reps r) 0 (t_ls s)))) in *.
  destruct (mid_know hosts h t s r native IV ltac:(lia)) as (L2 & K2).
  set (l2 := mid native (ri_now r) (ri_reps r) (t_ls s)) in *. cbn zeta in E.
  set (vs := if native then map (native_verdict (ri_now r)) l2 else []) in *.
  destruct (t_wdff s || existsb is_nfail vs); [cbn in E; discriminate|].
  destruct (existsb is_ndone vs) eqn:EN.
  - (* native timeout *)
    clear E. apply existsb_exists in EN. destruct EN as (v & I & V). unfold vs in I. destruct native eqn:ENat; [|destruct I].
    apply in_map_iff in I. destruct I as (l & EV & I). apply In_nth_error in I. destruct I as (i & EI).
    destruct (K2 i l EI) as (l0 & _ & EL & K). subst v. unfold native_verdict in V.
    destruct (l_used l && l_resetting l && (NATIVE_TIMEOUT <? u64 (ri_now r - l_beg_local l))) eqn:EC; [|discriminate].
    apply andb_prop in EC. destruct EC as [ER EC]. apply andb_prop in ER. destruct ER as [EU ER]. unfold NATIVE_TIMEOUT, u64 in EC.
    destruct (Z.eq_dec (l_beg_local l) 0) as [Z0|NZ].
    + (* only when the clock shows 0 *)
      exfalso. clear -EL EU ER Z0 EC LE. subst l. unfold native_mark in *.
      destruct (l_used (poll_ls (ri_reps r i) l0) && l_resetting (poll_ls (ri_reps r i) l0) && (l_beg_local (poll_ls (ri_reps r i) l0) =? 0)) eqn:C.
      * cbn [l_beg_local] in *. rewrite Z0 in EC. cbn in EC. discriminate.
      * rewrite EU, ER, Z0 in C. discriminate.
    + destruct (k_beg _ _ _ _ _ K NZ) as (_ & B & u & I & Q). assert (D := W1 i u I).
      rewrite Z.mod_small in EC by lia. lia.
  - (* host status *)
    cbn [orb] in E. destruct (existsb (status_done rm) (map status_ls l2)) eqn:ES.
    2:{ destruct (reset_fail (ri_now r) begin (mkT (map status_ls l2) native false)); discriminate. }
    apply existsb_exists in ES. destruct ES as (l' & I & D). apply in_map_iff in I. destruct I as (l & <- & I).
    apply In_nth_error in I. destruct I as (i & EI). destruct (K2 i l EI) as (l0 & E0 & EL & K). assert (KS := status_know _ _ _ _ _ K).
    unfold status_done in D. apply andb_prop in D. destruct D as [DU D].
    assert (DD : l_dead (status_ls l) = true) by (destruct rm; [exact D|apply andb_prop in D; apply D]).
    destruct (k_dead _ _ _ _ _ KS DD) as (u & IF & Q).
    destruct CASE as [RM|[ONE|DA]].
    + apply in_split in IF. destruct IF as (a & b & EQ). assert (P := W2 a i u b EQ (or_introl RM)). lia.
    + destruct rm. { apply in_split in IF. destruct IF as (a & b & EQ). assert (P := W2 a i u b EQ (or_introl eq_refl)). lia. }
      destruct hosts as [|x [|y hosts]]; try discriminate.
      destruct (single_inv _ _ _ _ _ R) as (m & EM & SM). rewrite EM in E0.
      destruct i as [|[|i]]; try discriminate. cbn [nth_error] in E0. injection E0 as <-.
      apply andb_prop in D. destruct D as [_ DR].
      destruct IV as (_ & _ & KI). assert (KM := KI 0%nat m ltac:(rewrite EM; reflexivity)).
      assert (U : l_used m = true).
      { destruct (l_used m) eqn:U; [reflexivity|]. exfalso. subst l. unfold status_ls, native_mark, poll_ls in DU. rewrite U in DU.
        cbn [andb] in DU. destruct native; rewrite ?U in DU; cbn [l_used andb] in DU; rewrite ?U in DU; congruence. }
      destruct (SM U) as [SD SF].
      (* the death is reported in this round *)
      assert (RP : exists p, ri_reps r 0%nat = Some p /\ rp_state p = HDead /\ l_resetting m = true).
      { subst l. unfold status_ls, native_mark, poll_ls in DD, DR. rewrite U in DD, DR.
        destruct (ri_reps r 0%nat) as [p|] eqn:ER.
        - exists p. split; [reflexivity|].
          assert (A : is_dead_state (rp_state p) = true /\ l_resetting m = true).
          { destruct native; [destruct (l_resetting m) eqn:EM2, (l_beg_local m =? 0) eqn:EM3|];
              repeat (cbn [l_used l_resetting l_beg_local l_dead l_flags andb] in *; rewrite ?EM2, ?EM3, ?SD in * );
              cbn [orb] in *; auto; try discriminate. }
          destruct A as [A B]. split; [|exact B]. destruct (rp_state p); try discriminate; reflexivity.
        - exfalso. assert (A : is_dead_state (l_flags m) = true).
          { destruct native; [destruct (l_resetting m) eqn:EM2, (l_beg_local m =? 0) eqn:EM3|];
              repeat (cbn [l_used l_resetting l_beg_local l_dead l_flags andb] in *; rewrite ?EM2, ?EM3, ?SD, ?U in * );
              cbn [orb] in *; auto; try discriminate. }
          destruct (l_flags m); try discriminate. apply SF. reflexivity. }
      destruct RP as (p & EP & DP & RM). destruct (k_res _ _ _ _ _ KM RM) as (v & IV2 & _).
      apply (W2 [] 0%nat (ri_now r) h); [|right; exists v; exact IV2].
      unfold rep_facts. cbn [length seq flat_map]. rewrite EP, DP. reflexivity.
    + apply in_split in IF. destruct IF as (a & b & EQ). assert (P := W2 a i u b EQ (or_intror (DA a i u b EQ))). lia.
Qed.

(* A host that keeps renewing its lease is not taken for reset by the native timeout: more than 90 seconds after
   the answer was seen, a report of a renewal more than 70 seconds after it ends the command with a failure. *)
Theorem C65_renewing_host_fails : forall rm begin s r i l p,
  nth_error (t_ls s) i = Some l -> l_used l = true -> l_resetting l = true ->
  0 < l_beg_local l -> l_beg_local l + 90 < ri_now r < 2 ^ 63 ->
  ri_reps r i = Some p -> l_beg_ts l + 70 < rp_ts p < l_beg_ts l + 2 ^ 63 ->
  t_native s = true -> (forall j q, ri_reps r j = Some q -> rp_io q = 10) ->
  round rm begin s r = Failure.
Proof.
  intros rm begin s r i l p EI U RS B NOW EP TS N IO. unfold round. rewrite reset_done_eq.
  assert (NO : existsb (fun b => b) (imap native_off (ri_reps r) 0 (t_ls s)) = false).
  { destruct (existsb (fun b => b) (imap native_off (ri_reps r) 0 (t_ls s))) eqn:EX; [exfalso|reflexivity].
    apply existsb_exists in EX. destruct EX as (b & I & ->). apply In_nth_error in I. destruct I as (j & EJ).
    rewrite imap_nth in EJ. destruct (nth_error (t_ls s) j) as [lj|]; [|discriminate]. cbn [option_map Nat.add] in EJ. unfold native_off in EJ.
    destruct (ri_reps r j) as [q|] eqn:EQ; [|rewrite andb_false_r in EJ; discriminate].
    rewrite (IO j q EQ) in EJ. cbn in EJ. rewrite !andb_false_r in EJ. discriminate. }
  rewrite N, NO. cbn [andb negb]. set (l2 := mid true (ri_now r) (ri_reps r) (t_ls s)). cbn zeta.
  assert (F : existsb is_nfail (map (native_verdict (ri_now r)) l2) = true).
  { apply existsb_exists. exists NFail. split; [|reflexivity].
    apply (nth_error_In _ i). rewrite nth_error_map. unfold l2, mid. cbn zeta. rewrite nth_error_map, imap_nth, EI.
    cbn [option_map Nat.add]. f_equal. rewrite EP. unfold poll_ls. rewrite U. unfold native_mark.
    cbn [l_used l_resetting l_beg_local]. rewrite RS. replace (l_beg_local l =? 0) with false by (symmetry; apply Z.eqb_neq; lia).
    cbn [andb]. unfold native_verdict. cbn [l_used l_resetting l_beg_local l_ts l_beg_ts]. rewrite ?RS. cbn [andb].
    unfold NATIVE_TIMEOUT, NATIVE_RENEWAL, u64. rewrite !Z.mod_small by lia.
    replace (90 <? ri_now r - l_beg_local l) with true by (symmetry; apply Z.ltb_lt; lia).
    replace (70 <? rp_ts p - l_beg_ts l) with true by (symmetry; apply Z.ltb_lt; lia). reflexivity. }
  rewrite F, orb_true_r. unfold reset_fail. cbn [t_wdff orb]. reflexivity.
Qed.

(* If timestamps do not go back, the alarm is right. *)
Theorem C65_alarm_partial : forall rm begin hosts h t s r,
  trun rm begin hosts h t s -> t <= ri_now r < 2 ^ 63 ->
  let s1 := fst (reset_done rm (ri_now r) (ri_reps r) s) in
  (forall l, In l (t_ls s1) -> l_beg_ts l <= l_ts l < l_beg_ts l + 2 ^ 63) ->
  t_wdff s1 = true -> exists l, In l (t_ls s1) /\ l_beg_ts l + 70 < l_ts l.
Proof.
  intros rm begin hosts h t s r R LE. cbn zeta. destruct (run_inv _ _ _ _ _ _ R) as [_ (_ & W & _)].
  rewrite reset_done_eq.
  set (native := t_native s && negb (existsb (fun b => b) (imap native_off (ri_reps r) 0 (t_ls s)))).
  set (l2 := mid native (ri_now r) (ri_reps r) (t_ls s)). cbn zeta.
  set (vs := if native then map (native_verdict (ri_now r)) l2 else []). rewrite W. cbn [orb].
  destruct (existsb is_nfail vs) eqn:EX; [|cbn; discriminate]. cbn [fst t_ls]. intros MON _.
  apply existsb_exists in EX. destruct EX as (v & I & V). unfold vs in I. destruct native; [|destruct I].
  apply in_map_iff in I. destruct I as (l & <- & I). exists l. split; [exact I|]. assert (M := MON l I).
  unfold native_verdict in V. destruct (l_used l && l_resetting l && (NATIVE_TIMEOUT <? u64 (ri_now r - l_beg_local l))); [|discriminate].
  destruct (NATIVE_RENEWAL <? u64 (l_ts l - l_beg_ts l)) eqn:EC; [|discriminate].
  unfold NATIVE_RENEWAL, u64 in EC. rewrite Z.mod_small in EC by lia. lia.
Qed.

(* When the host has answered in every lockspace left, and there is one, the command ends after 300 seconds. *)
Theorem C65_ends_partial : forall rm begin hosts h t s r s',
  trun rm begin hosts h t s -> t <= ri_now r < 2 ^ 63 -> begin + 300 < ri_now r -> 0 <= begin ->
  (exists l, In l (t_ls s) /\ l_used l = true) -> (forall l, In l (t_ls s) -> l_used l = true -> l_resetting l = true) ->
  round rm begin s r <> Go s'.
Proof.
  intros rm begin hosts h t s r s' R LE LATE B0 (l & IL & U) ALL. unfold round. rewrite reset_done_eq.
  set (native := t_native s && negb (existsb (fun b => b) (imap native_off (ri_reps r) 0 (t_ls s)))).
  set (l2 := mid native (ri_now r) (ri_reps r) (t_ls s)). cbn zeta.
  set (vs := if native then map (native_verdict (ri_now r)) l2 else []).
  destruct (t_wdff s || existsb is_nfail vs); [cbn; discriminate|].
  destruct (existsb is_ndone vs || existsb (status_done rm) (map status_ls l2)); [discriminate|].
  assert (SAME : forall i m, nth_error (map status_ls l2) i = Some m -> exists m0, nth_error (t_ls s) i = Some m0 /\
            l_used m = l_used m0 /\ l_resetting m = l_resetting m0).
  { intros i m E. rewrite nth_error_map in E. unfold l2, mid in E. cbn zeta in E.
    assert (P : forall q x, l_used (poll_ls q x) = l_used x /\ l_resetting (poll_ls q x) = l_resetting x).
    { intros q x. unfold poll_ls. destruct (l_used x) eqn:EU; [destruct q|]; cbn; auto. }
    assert (Q : forall n x, l_used (native_mark n x) = l_used x /\ l_resetting (native_mark n x) = l_resetting x).
    { intros n x. unfold native_mark. destruct (l_used x) eqn:EU, (l_resetting x) eqn:ER, (l_beg_local x =? 0); cbn; auto. }
    assert (S : forall x, l_used (status_ls x) = l_used x /\ l_resetting (status_ls x) = l_resetting x).
    { intros x. unfold status_ls. destruct (l_used x) eqn:EU; cbn; auto. }
    destruct native; [rewrite nth_error_map in E|]; rewrite imap_nth in E; destruct (nth_error (t_ls s) i) as [m0|]; try discriminate;
      cbn [option_map] in E; injection E as <-; exists m0; (split; [reflexivity|]).
    - rewrite (proj1 (S _)), (proj2 (S _)), (proj1 (Q _ _)), (proj2 (Q _ _)). apply P.
    - rewrite (proj1 (S _)), (proj2 (S _)). apply P. }
  assert (LEN : length (map status_ls l2) = length (t_ls s)).
  { rewrite map_length. unfold l2, mid. cbn zeta. destruct native; [rewrite map_length|]; apply imap_len. }
  assert (FAIL : forall i m, nth_error (map status_ls l2) i = Some m -> l_used m = true -> ls_fails (ri_now r) begin m = true).
  { intros i m E UM. destruct (SAME i m E) as (m0 & E0 & U0 & R0). unfold ls_fails. rewrite UM. cbn [andb].
    rewrite R0, (ALL m0); [|eapply nth_error_In; exact E0|congruence]. unfold u64. rewrite Z.mod_small by lia. apply Z.ltb_lt. lia. }
  replace (reset_fail (ri_now r) begin (mkT (map status_ls l2) native false)) with true; [discriminate|].
  symmetry. unfold reset_fail. cbn [t_wdff t_ls orb]. apply andb_true_intro. split.
  - apply In_nth_error in IL. destruct IL as (i & EI).
    destruct (nth_error (map status_ls l2) i) as [m|] eqn:EM.
    2:{ exfalso. apply nth_error_None in EM. assert (i < length (t_ls s))%nat by (apply nth_error_Some; rewrite EI; discriminate). lia. }
    apply existsb_exists. exists m. split; [eapply nth_error_In; exact EM|]. apply (FAIL i m EM).
    destruct (SAME i m EM) as (m0 & E0 & U0 & _). rewrite EI in E0. injection E0 as <-. congruence.
  - apply negb_true_iff. destruct (existsb (ls_waits (ri_now r) begin) (map status_ls l2)) eqn:EX; [exfalso|reflexivity].
    apply existsb_exists in EX. destruct EX as (m & I & WM). apply In_nth_error in I. destruct I as (i & EM).
    unfold ls_waits in WM. apply andb_prop in WM. destruct WM as [UM WM]. rewrite (FAIL i m EM UM) in WM. discriminate.
Qed.

(* A host that does not answer: the command gives up exactly when it has seen four renewals (lines 238-296).
   ts: the timestamps reported so far, newest first; a change from 0 is not a renewal. *)
Fixpoint renewals_in (ts : list Z) : N :=
  match ts with
  | a :: ((b :: _) as r) => ((if ((b =? 0) || (b =? a))%Z then 0 else 1) + renewals_in r)%N
  | _ => 0%N
  end.
Definition seen_ts (r : rin) (ts : list Z) : list Z := match ri_reps r 0%nat with Some p => rp_ts p :: ts | None => ts end.
Definition alive_rep (r : rin) : Prop :=
  forall p, ri_reps r 0%nat = Some p -> rp_state p <> HDead /\ rp_state p <> HFree.
Inductive no_answer (rm : bool) (begin : Z) (x : N) : list Z -> tst -> Prop :=
| na_start : no_answer rm begin x [] (tstart [x])
| na_round ts s r s' : no_answer rm begin x ts s -> alive_rep r -> ri_evs r = [] -> round rm begin s r = Go s' ->
    no_answer rm begin x (seen_ts r ts) s'.

Definition waiting (ts : list Z) (l : ls) : Prop :=
  l_used l = true /\ l_resetting l = false /\ l_dead l = false /\ l_free l = false /\
  l_flags l <> HDead /\ l_flags l <> HFree /\ l_ts l = hd 0 ts /\ l_renewals l = renewals_in ts.

Lemma poll_waiting r ts l : alive_rep r -> waiting ts l -> waiting (seen_ts r ts) (poll_ls (ri_reps r 0%nat) l).
Proof.
  intros A (U & R & D & F & H1 & H2 & T & K). unfold waiting, seen_ts, poll_ls. rewrite U.
  destruct (ri_reps r 0%nat) as [p|] eqn:P; [|tauto]. destruct (A p P). cbn [l_used l_resetting l_dead l_free l_flags l_ts l_renewals].
  repeat split; auto. rewrite K, T. destruct ts as [|b ts]; [reflexivity|].
  cbn [hd renewals_in tl]. destruct (b =? 0) eqn:B0; destruct (b =? rp_ts p) eqn:B1; cbn [negb andb orb]; lia.
Qed.

Lemma mark_waiting now ts l : waiting ts l -> native_mark now l = l.
Proof. intros (U & R & _). unfold native_mark. now rewrite U, R. Qed.

Lemma round_waiting rm begin s r ts l nat0 :
  s = mkT [l] nat0 false -> waiting ts l -> alive_rep r ->
  let l' := poll_ls (ri_reps r 0%nat) l in
  waiting (seen_ts r ts) l' /\ exists n,
  round rm begin s r = if (4 <=? renewals_in (seen_ts r ts))%N then Failure
                       else Go (fold_left tevent (ri_evs r) (mkT [l'] n false)).
Proof.
  intros -> W A l'. assert (W' : waiting (seen_ts r ts) l') by (apply poll_waiting; auto). split; auto.
  unfold round, reset_done. cbv zeta. cbn [t_ls t_native t_wdff imap map orb].
  fold l'. clearbody l'. rewrite (mark_waiting _ _ _ W').
  destruct W' as (U & R & D & F & H1 & H2 & T & K).
  set (n := nat0 && negb (existsb (fun b => b) [native_off (ri_reps r 0%nat) l])). exists n.
  assert (V : native_verdict (ri_now r) l' = NNone) by (unfold native_verdict; now rewrite U, R).
  assert (S : status_ls l' = l').
  { unfold status_ls. rewrite U, D, F. destruct l' as [u h b1 b2 t0 fl re de fr k]. cbn in *.
    destruct fl; try congruence; cbn; congruence. }
  destruct n; cbn [map existsb]; rewrite ?V; cbn [is_nfail is_ndone map existsb orb];
    rewrite S; unfold status_done; rewrite D; cbn [andb];
    replace (l_used l' && (if rm then false else false)) with false by (destruct rm, (l_used l'); reflexivity);
    unfold reset_fail, ls_waits, ls_fails; cbn [t_wdff t_ls existsb orb]; rewrite U, R, D, F, K; cbn [andb orb];
    destruct (4 <=? renewals_in (seen_ts r ts))%N; reflexivity.
Qed.

Lemma no_answer_inv rm begin x ts s : no_answer rm begin x ts s ->
  exists l n, s = mkT [l] n false /\ waiting ts l.
Proof.
  induction 1 as [|ts s r s' Q IH A E G].
  - exists (start_ls x), true. split; [reflexivity|]. unfold waiting, start_ls; cbn. repeat split; congruence.
  - destruct IH as (l & n & -> & W).
    destruct (round_waiting rm begin _ r ts l n eq_refl W A) as (W' & n' & R).
    rewrite E in R. cbn [fold_left] in R. rewrite R in G.
    destruct (4 <=? _)%N; [discriminate|]. injection G as <-. eauto.
Qed.

Theorem C65_no_answer_fails : forall rm begin x ts s r,
  no_answer rm begin x ts s -> alive_rep r ->
  (round rm begin s r = Failure <-> (4 <= renewals_in (seen_ts r ts))%N) /\ round rm begin s r <> Success.
Proof.
  intros rm begin x ts s r Q A. destruct (no_answer_inv _ _ _ _ _ Q) as (l & n & -> & W).
  destruct (round_waiting rm begin _ r ts l n eq_refl W A) as (_ & n' & ->).
  destruct (4 <=? renewals_in (seen_ts r ts))%N eqn:B; (split; [split|]); intros; try discriminate; auto; lia.
Qed.

(* a host that renews every 20 seconds and does not answer: the fifth timestamp ends the command *)
Example C65_no_answer_case :
  let q (k : Z) := mkR (20 * k) (fun _ => Some (mkRep (100 + 20 * k) HLive 10)) [] in
  exists s, no_answer false 0 1%N [160; 140; 120; 100] s /\ round false 0 s (q 4) = Failure.
Proof.
  cbv zeta. set (q := fun k : Z => mkR (20 * k) (fun _ => Some (mkRep (100 + 20 * k) HLive 10)) []).
  assert (A : forall k, alive_rep (q k)) by (intros k p [= <-]; split; cbn; congruence).
  destruct (round false 0 (tstart [1%N]) (q 0)) as [| |s1] eqn:R1; try discriminate R1.
  assert (Q1 := na_round _ _ _ _ _ (q 0) s1 (na_start false 0 1%N) (A 0) eq_refl R1).
  cbv in R1. injection R1 as <-.
  do 3 match goal with Q : no_answer _ _ _ ?ts ?s |- _ =>
    let k := eval cbv in (Z.of_nat (length ts)) in
    let s' := eval cbv in (match round false 0 s (q k) with Go s' => s' | _ => s end) in
    assert (no_answer false 0 1%N (seen_ts (q k) ts) s') by (eapply na_round; [exact Q|apply A|reflexivity|reflexivity]); clear Q end.
  match goal with Q : no_answer _ _ _ _ ?s |- _ => exists s; split; [exact Q|reflexivity] end.
Qed.

(* ---- refutations ---- *)
Definition live (ts : Z) : rep := mkRep ts HLive 10.
Definition dead (ts : Z) : rep := mkRep ts HDead 10.

(* Two lockspaces.  In the first the host is reported dead: it lost the storage there and left, still running.
   Later it joins again and answers RESETTING, and the old report is taken with the new answer. *)
Definition q1 : rin := mkR 10 (fun i => match i with O => Some (dead 5) | _ => Some (live 5) end) [].
Definition q2 : rin := mkR 60 (fun i => match i with O => Some (live 50) | _ => Some (live 25) end) [TGot 0 1 2].
Definition q3 : rin := mkR 62 (fun i => match i with O => Some (live 50) | _ => Some (live 25) end) [].
Theorem C65_refuted : ~ C65_statement.
Proof.
  intros H.
  destruct (round false 0 (tstart [1; 1]%N) q1) as [| |s1] eqn:E1; [discriminate|discriminate|].
  assert (R1 : trun false 0 [1; 1]%N [FDead 0 10] 10 s1).
  { exact (tr_round false 0 [1; 1]%N [] 0 _ q1 s1 (tr_start false 0 _ ltac:(lia)) ltac:(cbn; lia) E1). }
  destruct (round false 0 s1 q2) as [| |s2] eqn:E2; [injection E1 as <-; discriminate|injection E1 as <-; discriminate|].
  assert (R2 : trun false 0 [1; 1]%N [FResetting 0 60; FDead 0 10] 60 s2).
  { exact (tr_round false 0 [1; 1]%N _ 10 _ q2 s2 R1 ltac:(cbn; lia) E2). }
  assert (E3 : round false 0 s2 q3 = Success).
  { injection E1 as <-. injection E2 as <-. vm_compute. reflexivity. }
  specialize (H false 0 [1; 1]%N _ 60 s2 q3 130 R2 ltac:(cbn; lia) E3). cbn in H.
  apply (Z.lt_irrefl 62). apply Z.lt_le_trans with 130; [lia|]. apply H. split.
  - intros i t [I|[I|[]]]; inversion I; subst; lia.
  - intros a i t b EQ [C|(t' & I)]; [discriminate|]. exfalso.
    destruct a as [|f1 [|f2 [|f3 a]]]; inversion EQ; subst; cbn in I; destruct I.
Qed.

(* The daemon dies: every connection is lost, no lockspace is left, and the command waits for ever. *)
Theorem C65_ends_refuted : ~ C65_ends_statement.
Proof.
  intros H. set (r1 := mkR 10 (fun _ => Some (live 5)) [TLost 0]). set (r2 := mkR 400 (fun _ => None) []).
  destruct (round false 0 (tstart [1%N]) r1) as [| |s1] eqn:E1; [discriminate|discriminate|].
  assert (R1 := tr_round false 0 [1%N] [] 0 _ r1 s1 (tr_start false 0 _ ltac:(lia)) ltac:(cbn; lia) E1).
  destruct (round false 0 s1 r2) as [| |s2] eqn:E2; [injection E1 as <-; discriminate|injection E1 as <-; discriminate|].
  exact (H false 0 [1%N] _ _ s1 r2 s2 R1 ltac:(cbn; lia) ltac:(cbn; lia) E2).
Qed.
Theorem C65_waits_for_ever : forall rm begin s r, (forall l, In l (t_ls s) -> l_used l = false) -> t_wdff s = false ->
  exists s', round rm begin s r = Go s' /\ (forall l, In l (t_ls s') -> l_used l = false) /\ t_wdff s' = false.
Proof.
  intros rm begin s r N W. unfold round. rewrite reset_done_eq.
  set (native := t_native s && negb (existsb (fun b => b) (imap native_off (ri_reps r) 0 (t_ls s)))). cbn zeta.
  assert (M : forall l, In l (mid native (ri_now r) (ri_reps r) (t_ls s)) -> l_used l = false).
  { intros l I. apply In_nth_error in I. destruct I as (i & E). unfold mid in E. cbn zeta in E.
    destruct native; [rewrite nth_error_map in E|]; rewrite imap_nth in E; destruct (nth_error (t_ls s) i) as [m|] eqn:EM; try discriminate;
      cbn [option_map] in E; injection E as <-; assert (U := N m (nth_error_In _ _ EM)); unfold native_mark, poll_ls; rewrite U; cbn; rewrite ?U; auto. }
  set (l2 := mid native (ri_now r) (ri_reps r) (t_ls s)) in *.
  assert (V : existsb is_nfail (if native then map (native_verdict (ri_now r)) l2 else []) = false /\
              existsb is_ndone (if native then map (native_verdict (ri_now r)) l2 else []) = false).
  { destruct native; [|auto]. split.
    - destruct (existsb is_nfail (map (native_verdict (ri_now r)) l2)) eqn:EX; [exfalso|reflexivity]. apply existsb_exists in EX. destruct EX as (v & I & P).
      apply in_map_iff in I. destruct I as (l & <- & I). unfold native_verdict in P. rewrite (M l I) in P. discriminate.
    - destruct (existsb is_ndone (map (native_verdict (ri_now r)) l2)) eqn:EX; [exfalso|reflexivity]. apply existsb_exists in EX. destruct EX as (v & I & P).
      apply in_map_iff in I. destruct I as (l & <- & I). unfold native_verdict in P. rewrite (M l I) in P. discriminate. }
  destruct V as [V1 V2]. rewrite W, V1, V2. cbn [orb].
  assert (MS : forall l, In l (map status_ls l2) -> l_used l = false).
  { intros l I. apply in_map_iff in I. destruct I as (m & <- & I). unfold status_ls. rewrite (M m I). apply M; exact I. }
  assert (S : existsb (status_done rm) (map status_ls l2) = false).
  { destruct (existsb (status_done rm) (map status_ls l2)) eqn:EX; [exfalso|reflexivity]. apply existsb_exists in EX. destruct EX as (l & I & P).
    unfold status_done in P. rewrite (MS l I) in P. discriminate. }
  assert (F : existsb (ls_fails (ri_now r) begin) (map status_ls l2) = false).
  { destruct (existsb (ls_fails (ri_now r) begin) (map status_ls l2)) eqn:EX; [exfalso|reflexivity]. apply existsb_exists in EX. destruct EX as (l & I & P).
    unfold ls_fails in P. rewrite (MS l I) in P. discriminate. }
  rewrite S. unfold reset_fail. cbn [t_wdff t_ls orb]. rewrite F. cbn [andb].
  eexists. split; [reflexivity|].
  assert (G : forall evs s0, (forall l, In l (t_ls s0) -> l_used l = false) -> t_wdff s0 = false ->
     (forall l, In l (t_ls (fold_left tevent evs s0)) -> l_used l = false) /\ t_wdff (fold_left tevent evs s0) = false).
  { induction evs as [|e evs IH]; intros s0 A B; [auto|]. cbn [fold_left]. apply IH; [|destruct e; exact B].
    intros l I. apply In_nth_error in I. destruct I as (j & E). destruct e as [i from ev|i]; cbn [tevent t_ls] in E; rewrite upd_nth in E;
      destruct (nth_error (t_ls s0) j) as [m|] eqn:EM; try discriminate; cbn [option_map] in E; injection E as <-;
      assert (U := A m (nth_error_In _ _ EM)); destruct (Nat.eqb j i); auto. rewrite U. exact U. }
  apply G; [exact MS|reflexivity].
Qed.

(* The host was reset as asked, and has joined again within 90 seconds: its clock, and so its timestamps, have
   started again, and the difference wraps around. *)
Theorem C65_alarm_refuted : ~ C65_alarm_statement.
Proof.
  intros H. set (r1 := mkR 10 (fun _ => Some (live 1000)) [TGot 0 1 2]). set (r2 := mkR 12 (fun _ => Some (live 1000)) []).
  set (r3 := mkR 110 (fun _ => Some (live 5)) []).
  destruct (round false 0 (tstart [1%N]) r1) as [| |s1] eqn:E1; [discriminate|discriminate|].
  assert (R1 := tr_round false 0 [1%N] [] 0 _ r1 s1 (tr_start false 0 _ ltac:(lia)) ltac:(cbn; lia) E1).
  destruct (round false 0 s1 r2) as [| |s2] eqn:E2; [injection E1 as <-; discriminate|injection E1 as <-; discriminate|].
  assert (R2 := tr_round false 0 [1%N] _ _ _ r2 s2 R1 ltac:(cbn; lia) E2).
  injection E1 as <-. injection E2 as <-.
  specialize (H false 0 [1%N] _ _ _ r3 R2 ltac:(cbn; lia) ltac:(vm_compute; reflexivity)).
  destruct H as (l & I & P). vm_compute in I. destruct I as [<-|[]]. vm_compute in P. discriminate.
Qed.

(* ---- a run that ends well ---- *)
Example C65_nonvacuous :
  let r1 := mkR 10 (fun _ => Some (live 1000)) [TGot 0 1 2] in
  let r2 := mkR 12 (fun _ => Some (live 1000)) [] in
  let r3 := mkR 110 (fun _ => Some (live 1065)) [] in
  match round false 0 (tstart [1%N]) r1 with
  | Go s1 => match round false 0 s1 r2 with Go s2 => round false 0 s2 r3 = Success | _ => False end
  | _ => False end /\
  world false 75 (rep_facts [1%N] r3 ++ ev_facts [1%N] r1).
Proof.
  split; [vm_compute; reflexivity|]. cbn. split.
  - intros i t [I|[]]; inversion I; lia.
  - intros a i t b EQ. destruct a as [|f a]; inversion EQ. destruct a; discriminate.
Qed.

Print Assumptions C65_partial.
Print Assumptions C65_renewing_host_fails.
Print Assumptions C65_no_answer_fails.
Print Assumptions C65_alarm_partial.
Print Assumptions C65_ends_partial.
Print Assumptions C65_refuted.
Print Assumptions C65_ends_refuted.
Print Assumptions C65_waits_for_ever.
Print Assumptions C65_alarm_refuted.
