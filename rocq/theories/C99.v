(* C99: wdmd chooses the first usable device of a fixed order, leaves no device armed by looking
   at it, and answers a client only with the timeout the device has. *)
From Coq Require Import List ZArith String Bool Lia.
From Verif Require Import WdDev.
Import ListNotations.
Open Scope string_scope. Open Scope Z_scope. Open Scope list_scope.

(* ---- specification: the order of preference (wdmd/main.c:1150-1157) ---- *)
Fixpoint uniq (seen l : list string) : list string :=
  match l with [] => [] | p :: l => if existsb (String.eqb p) seen then uniq seen l else p :: uniq (p :: seen) l end.
Definition order (saved w : string) : list string := uniq [""] [saved; w; "/dev/watchdog0"; "/dev/watchdog1"; "/dev/watchdog"].
(* the daemon can use a device that is there, can be opened and tells its timeout *)
Definition answers (d : drv) : bool := stat_ok d && open_ok d && match get0 d with Some _ => true | None => false end.
(* a device that can be given the timeout v *)
Definition takes (v : Z) (d : drv) : bool :=
  answers d && (match get0 d with Some t => t =? v | None => false end || match setr d v with Some w => w =? v | None => false end).

(* ---- specification: what the kernel makes of the calls.  Opening a device arms it; closing it
   disarms it if the last write was "V"; only one is open at a time ---- *)
Record hw := mkHw { cur : option (string * bool); armed : list string }.
Definition kstep (k : hw) (e : ev) : option hw :=
  match e with
  | EStat _ _ | EOpen _ false | EPrint _ | EWait _ => Some k
  | EOpen p true => match cur k with None => Some (mkHw (Some (p, false)) (p :: armed k)) | Some _ => None end
  | EGet _ | ESet _ _ | EKeep _ => match cur k with Some _ => Some k | None => None end
  | EV ok => match cur k with Some (p, _) => Some (mkHw (Some (p, ok)) (armed k)) | None => None end
  | EClose => match cur k with
      | Some (p, m) => Some (mkHw None (if m then filter (fun q => negb (String.eqb p q)) (armed k) else armed k))
      | None => None end
  end.
Fixpoint krun (k : hw) (l : list ev) : option hw := match l with [] => Some k | e :: l => match kstep k e with Some k => krun k l | None => None end end.
Definition k0 := mkHw None [].
Definition is_set (e : ev) : bool := match e with ESet _ _ => true | _ => false end.
Definition opened (l : list ev) : list string := flat_map (fun e => match e with EOpen p true => [p] | _ => [] end) l.

(* ---- the five steps are a walk through the order ---- *)
Fixpoint walk (try : string -> bool * list ev) (l : list string) : option string * list ev :=
  match l with [] => (None, []) | p :: l => let (ok, t) := try p in if ok then (Some p, t) else let (r, t') := walk try l in (r, t ++ t') end.
Lemma search_walk : forall try saved w, search try saved w = walk try (order saved w).
Proof.
  intros try saved w. unfold search, order.
  change "/dev/watchdog0" with WD0. change "/dev/watchdog1" with WD1. change "/dev/watchdog" with WD.
  assert (D : WD0 <> "" /\ WD1 <> "" /\ WD <> "" /\ WD0 <> WD1 /\ WD0 <> WD /\ WD1 <> WD) by (repeat split; discriminate).
  destruct D as (D0 & D1 & D2 & D3 & D4 & D5).
  generalize dependent WD0. intros a. generalize dependent WD1. intros b. generalize dependent WD. intros c. intros.
  cbn [uniq existsb]. rewrite !orb_false_r. unfold step.
  rewrite (String.eqb_sym saved w), (String.eqb_sym saved a), (String.eqb_sym saved b), (String.eqb_sym saved c),
    (String.eqb_sym w a), (String.eqb_sym w b), (String.eqb_sym w c).
  assert (F : forall x y, x <> y -> (x =? y)%string = false) by (intros x y; apply String.eqb_neq).
  destruct (String.eqb_spec saved ""); destruct (String.eqb_spec w ""); destruct (String.eqb_spec w saved);
  destruct (String.eqb_spec a saved); destruct (String.eqb_spec b saved); destruct (String.eqb_spec c saved);
  destruct (String.eqb_spec a w); destruct (String.eqb_spec b w); destruct (String.eqb_spec c w); try congruence; subst;
  cbn [uniq existsb walk orb]; rewrite ?F by congruence; cbn [uniq existsb walk orb]; rewrite ?F by congruence; cbn [uniq existsb walk orb];
  rewrite ?F by congruence; cbn [uniq existsb walk orb]; rewrite ?String.eqb_refl; cbn [uniq existsb walk orb]; rewrite ?F by congruence; cbn [uniq existsb walk orb];
  rewrite ?orb_true_r; cbn [uniq existsb walk orb]; try reflexivity.
Qed.

Lemma walk_find : forall try l, fst (walk try l) = find (fun p => fst (try p)) l.
Proof. induction l as [|p l IH]; [reflexivity|]. cbn. destruct (try p) as [ok t]. cbn. destruct ok; [reflexivity|]. destruct (walk try l). exact IH. Qed.
Lemma cut_len : forall s n, (String.length (substring 0 n s) <= n)%nat.
Proof. induction s as [|c s IH]; intros [|n]; cbn; auto using Nat.le_0_l. apply le_n_S, IH. Qed.
Lemma cut_id : forall s n, (String.length s <= n)%nat -> substring 0 n s = s.
Proof. induction s as [|c s IH]; intros [|n] H; cbn in *; auto; [lia|]. f_equal. apply IH. lia. Qed.
Lemma uniq_in : forall l seen p, In p (uniq seen l) -> In p l.
Proof. induction l as [|q l IH]; intros seen p H; [exact H|]. cbn in H. destruct (existsb _ seen); [right; eauto|]. destruct H as [-> | H]; [left; reflexivity|right; eauto]. Qed.
Lemma order_short : forall saved w p, (String.length saved <= 63)%nat -> In p (order saved (cut w)) -> cut p = p.
Proof.
  intros saved w p Hs H. apply cut_id. apply uniq_in in H.
  destruct H as [<- | [<- | [<- | [<- | [<- | []]]]]]; [exact Hs|apply cut_len|apply Nat.leb_le; reflexivity..].
Qed.
Lemma find_ext_in : forall {A} (f g : A -> bool) l, (forall x, In x l -> f x = g x) -> find f l = find g l.
Proof. induction l as [|x l IH]; intros H; [reflexivity|]. cbn. rewrite (H x) by (left; reflexivity). rewrite IH by (intros; apply H; right; assumption). reflexivity. Qed.

(* the device that is used is the first in the order of preference that answers; without one
   wdmd does not start *)
Theorem C99_choice : forall D saved w, (String.length saved <= 63)%nat ->
  fst (setup D saved w) = find (fun p => answers (D p)) (order saved (cut w)).
Proof.
  intros D saved w Hs. unfold setup. rewrite search_walk, walk_find. apply find_ext_in. intros p H.
  unfold setup1. rewrite (order_short _ _ _ Hs H). unfold answers. destruct (stat_ok (D p)), (open_ok (D p)); try reflexivity. cbn. destruct (get0 (D p)); reflexivity.
Qed.
Print Assumptions C99_choice.

(* wdmd -p prints, and exits with success, for the first device that can be given the timeout *)
Theorem C99_probe : forall D saved w ff, fst (probe D saved w 0 ff) = find (fun p => takes 60 (D p)) (order saved (cut w)).
Proof.
  intros D saved w ff. unfold probe. cbn [Z.eqb]. rewrite search_walk, walk_find. apply find_ext_in. intros p H.
  unfold probe1, takes, answers, FIRE. destruct (stat_ok (D p)), (open_ok (D p)); try reflexivity. cbn [negb andb]. destruct (get0 (D p)) as [t|]; [|reflexivity].
  destruct (t =? 60); [reflexivity|]. cbn [andb orb]. destruct (setr (D p) 60) as [x|]; [|reflexivity]. destruct (x =? 60); reflexivity.
Qed.
Print Assumptions C99_probe.

(* wdmd -t n: the first device that takes n, can be asked again and be petted *)
Definition runs (n : Z) (d : drv) : bool :=
  answers d && match setr d n, get1 d with Some w, Some _ => (w =? n) && keep_ok d | _, _ => false end.
Theorem C99_try : forall D saved w t ff, t <> 0 -> fst (probe D saved w t ff) = find (fun p => runs t (D p)) (order saved (cut w)).
Proof.
  intros D saved w t ff Ht. unfold probe. destruct (Z.eqb_spec t 0) as [E | _]; [contradiction|]. rewrite search_walk, walk_find. apply find_ext_in. intros p H. unfold try1, runs, answers.
  destruct (stat_ok (D p)); [|reflexivity]. destruct (open_ok (D p)); [|reflexivity]. destruct (get0 (D p)); [|reflexivity]. cbn [negb andb].
  destruct (setr (D p) t) as [v|]; [|reflexivity]. destruct (v =? t); cbn [negb andb]; [|destruct (get1 (D p)); reflexivity]. destruct (get1 (D p)); [|reflexivity]. destruct (keep_ok (D p)); reflexivity.
Qed.
Print Assumptions C99_try.

(* the daemon uses the device the probe found if every device that answers takes the timeout *)
Theorem C99_agree_partial : forall D saved w ff, (String.length saved <= 63)%nat ->
  (forall p, In p (order saved (cut w)) -> answers (D p) = true -> takes 60 (D p) = true) ->
  fst (probe D saved w 0 ff) = fst (setup D saved w).
Proof.
  intros D saved w ff Hs H. rewrite C99_choice, C99_probe by exact Hs. apply find_ext_in. intros p Hp.
  destruct (answers (D p)) eqn:E; [apply H; assumption|]. unfold takes. rewrite E. reflexivity.
Qed.
Print Assumptions C99_agree_partial.

(* ---- no device is left armed by being looked at ---- *)
Definition tame (D : string -> drv) (k : hw) (l : list ev) : Prop :=
  exists k', krun k l = Some k' /\ cur k' = None /\ forall q, In q (armed k') -> In q (armed k) \/ v_ok (D q) = false.
Lemma krun_app : forall l l' k k', krun k l = Some k' -> krun k (l ++ l') = krun k' l'.
Proof. induction l as [|e l IH]; intros l' k k' H; cbn in *; [injection H as ->; reflexivity|]. destruct (kstep k e); [eauto|discriminate]. Qed.
Lemma tame_close : forall D p mid k, cur k = None ->
  (forall k', cur k' <> None -> krun k' mid = Some k') ->
  tame D k (EStat p true :: EOpen p true :: mid ++ close_wd (D p)).
Proof.
  intros D p mid k Hk Hm. unfold tame. cbn [krun kstep]. rewrite Hk.
  rewrite (krun_app mid _ _ (mkHw (Some (p, false)) (p :: armed k))) by (apply Hm; discriminate).
  unfold close_wd. cbn [krun kstep cur armed]. eexists. split; [reflexivity|]. split; [reflexivity|]. cbn [armed].
  intros q Hq. destruct (v_ok (D p)) eqn:E.
  - apply filter_In in Hq as [Hq Hn]. destruct Hq as [-> | Hq]; [rewrite String.eqb_refl in Hn; discriminate|left; exact Hq].
  - destruct Hq as [<- | Hq]; [right; exact E|left; exact Hq].
Qed.
Lemma tame_stat : forall D p k b, cur k = None -> tame D k [EStat p b].
Proof. intros D p k b H. exists k. split; [reflexivity|]. auto. Qed.
Lemma tame_open : forall D p k b, cur k = None -> tame D k [EStat p b; EOpen p false].
Proof. intros D p k b H. exists k. split; [reflexivity|]. auto. Qed.
Lemma walk_tame : forall D try, (forall p k, cur k = None -> tame D k (snd (try p))) -> forall l k, cur k = None -> tame D k (snd (walk try l)).
Proof.
  intros D try T. induction l as [|p l IH]; intros k Hk.
  - exists k. split; [reflexivity|]. auto.
  - cbn [walk]. specialize (T p k Hk). destruct (try p) as [ok t]. cbn [snd] in T. destruct ok; [exact T|].
    destruct T as (k1 & R & C & A). specialize (IH k1 C). destruct (walk try l) as [r t']. cbn [snd] in *.
    destruct IH as (k2 & R2 & C2 & A2). exists k2. rewrite (krun_app _ _ _ _ R). split; [exact R2|]. split; [exact C2|].
    intros q H. destruct (A2 q H) as [H1 | H1]; auto.
Qed.
Ltac mid := intros ? ?; cbn; repeat match goal with |- context [match cur ?k with _ => _ end] => destruct (cur k) eqn:?; [|congruence] end; reflexivity.
Lemma setup1_tame : forall D p k, cur k = None -> tame D k (snd (setup1 D p)).
Proof.
  intros D p k Hk. unfold setup1. destruct (stat_ok _); [|apply tame_stat; exact Hk]. destruct (open_ok _); [|apply tame_open; exact Hk].
  cbn [negb]. destruct (get0 _) as [t|]; cbn [snd app].
  - apply (tame_close D (cut p) [EGet (Some t)] k Hk). mid.
  - apply (tame_close D (cut p) [EGet None] k Hk). mid.
Qed.
Lemma probe1_tame : forall D p k, cur k = None -> tame D k (snd (probe1 D p)).
Proof.
  intros D p k Hk. unfold probe1. destruct (stat_ok _); [|apply tame_stat; exact Hk]. destruct (open_ok _); [|apply tame_open; exact Hk].
  cbn [negb]. destruct (get0 _) as [t|]; [|apply (tame_close D p [EGet None] k Hk); mid].
  destruct (t =? FIRE); [apply (tame_close D p [EGet (Some t); EPrint p] k Hk); mid|].
  destruct (setr _ _) as [x|]; [|apply (tame_close D p [EGet (Some t); ESet FIRE None] k Hk); mid].
  destruct (x =? FIRE); [apply (tame_close D p [EGet (Some t); ESet FIRE (Some x); EPrint p] k Hk); mid|].
  apply (tame_close D p [EGet (Some t); ESet FIRE (Some x)] k Hk); mid.
Qed.
Lemma try1_tame : forall n ff D p k, cur k = None -> tame D k (snd (try1 n ff D p)).
Proof.
  intros n ff D p k Hk. unfold try1. destruct (stat_ok _); [|apply tame_stat; exact Hk]. destruct (open_ok _); [|apply tame_open; exact Hk].
  cbn [negb]. destruct (get0 _) as [t|]; [|apply (tame_close D p [EGet None] k Hk); mid].
  destruct (setr _ _) as [x|]; [|apply (tame_close D p [EGet (Some t); ESet n None] k Hk); mid].
  destruct (x =? n); cbn [negb]; [|apply (tame_close D p [EGet (Some t); ESet n (Some x)] k Hk); mid].
  destruct (get1 _) as [g|]; [|apply (tame_close D p [EGet (Some t); ESet n (Some x); EGet None] k Hk); mid].
  destruct (keep_ok _); cbn [negb]; [|apply (tame_close D p [EGet (Some t); ESet n (Some x); EGet (Some g); EKeep false] k Hk); mid].
  destruct ff; [apply (tame_close D p [EGet (Some t); ESet n (Some x); EGet (Some g); EKeep true; EWait (g + 4)] k Hk); mid|].
  apply (tame_close D p [EGet (Some t); ESet n (Some x); EGet (Some g); EKeep true] k Hk); mid.
Qed.

(* after the start and after a probe no device is open, at no time were two, and a device is
   armed only if it did not take the "V" *)
Theorem C99_disarmed : forall D saved w,
  tame D k0 (snd (setup D saved w)) /\ forall t ff, tame D k0 (snd (probe D saved w t ff)).
Proof.
  intros D saved w. split; [|intros t ff]; unfold setup, probe; rewrite search_walk; apply walk_tame; try reflexivity; [apply setup1_tame|].
  destruct (t =? 0); [apply probe1_tame|apply try1_tame].
Qed.
Print Assumptions C99_disarmed.

Theorem C99_all_disarmed : forall D saved w, (forall p, v_ok (D p) = true) ->
  (exists k, krun k0 (snd (setup D saved w)) = Some k /\ armed k = []) /\
  forall t ff, exists k, krun k0 (snd (probe D saved w t ff)) = Some k /\ armed k = [].
Proof.
  intros D saved w Hv. destruct (C99_disarmed D saved w) as [A B].
  assert (G : forall l, tame D k0 l -> exists k, krun k0 l = Some k /\ armed k = []).
  { intros l (k & R & _ & H). exists k. split; [exact R|]. destruct (armed k) as [|q a]; [reflexivity|].
    destruct (H q (or_introl eq_refl)) as [[] | E]. rewrite Hv in E. discriminate. }
  split; [apply G; exact A|intros; apply G, B].
Qed.
Print Assumptions C99_all_disarmed.

(* the start does not change a timeout *)
Theorem C99_start_sets_nothing : forall D saved w, existsb is_set (snd (setup D saved w)) = false.
Proof.
  intros D saved w. unfold setup. rewrite search_walk. induction (order saved (cut w)) as [|p l IH]; [reflexivity|].
  cbn [walk]. assert (E : existsb is_set (snd (setup1 D p)) = false).
  { unfold setup1. destruct (stat_ok _), (open_ok _); try reflexivity. cbn [negb]. destruct (get0 _); reflexivity. }
  destruct (setup1 D p) as [ok t]. destruct ok; [exact E|]. destruct (walk _ l) as [r t']. cbn [snd] in *. rewrite existsb_app, E, IH. reflexivity.
Qed.
Print Assumptions C99_start_sets_nothing.

(* ---- opening for a client ---- *)
(* the timeout the device has after the calls: what it reported last *)
Definition reported (l : list ev) : option Z := fold_left (fun a e => match e with EGet r => r | _ => a end) l None.
Definition count_open (l : list ev) : Z := fold_left (fun n e => match e with EOpen _ true => n + 1 | EClose => n - 1 | _ => n end) l 0.

(* when the first client is told that it has its timeout, the device is open, was petted and
   reports that timeout; the answer is the timeout that is in use *)
Theorem C99_open_ok : forall d path s h s' a l, 0 < h < 2 ^ 31 -> enable s = false ->
  open_wd d path s h = (s', a, l) -> client_open h (Some a) = true ->
  exists g, enable s' = true /\ fd_open s' = true /\ u32 g = h /\ reported l = Some g /\ fire s' = g /\ count_open l = 1 /\ In (EKeep (keep_ok d)) l.
Proof.
  intros d path s h s' a l Hh He Ho Hc. unfold open_wd in Ho. rewrite He in Ho.
  assert (U : u32 h = h) by (apply Z.mod_small; lia). unfold client_open in Hc. rewrite U in Hc. apply Z.eqb_eq in Hc. subst a.
  assert (Z0 : h =? 0 = false) by (apply Z.eqb_neq; lia). rewrite Z0 in Ho.
  destruct (fd_open s); [injection Ho as _ E _; lia|]. destruct (open_ok d); cbn [negb] in Ho; [|injection Ho as _ E _; lia].
  destruct (get0 d) as [g|]; [|injection Ho as _ E _; lia]. destruct (Z.eqb_spec (u32 g) h) as [e | _].
  - injection Ho as <- _ <-. exists g. split; [reflexivity|]; split; [reflexivity|]; split; [exact e|]; split; [reflexivity|]; split; [reflexivity|]; split; [reflexivity|]; cbn [In app]; auto 9.
  - cbv zeta in Ho. destruct (setr d (s32 h)) as [x|] eqn:Es; [|injection Ho as _ E _; lia].
    destruct (get1 d) as [g1|]; [|injection Ho as _ E _; lia]. destruct (g1 =? x); [|injection Ho as _ E _; lia].
    injection Ho as <- E <-. exists g1. split; [reflexivity|]; split; [reflexivity|]; split; [exact E|]; split; [reflexivity|]; split; [reflexivity|]; split; [reflexivity|]; cbn [In app]; auto 9.
Qed.
Print Assumptions C99_open_ok.

(* a client that comes later is told that it has its timeout only if it is the one in use *)
Theorem C99_open_later : forall d path s h, 0 < h < 2 ^ 31 -> enable s = true ->
  exists a, open_wd d path s h = (s, a, []) /\ (client_open h (Some a) = true <-> u32 (fire s) = h).
Proof.
  intros d path s h Hh He. unfold open_wd. rewrite He. eexists. split; [reflexivity|]. unfold client_open.
  assert (U : u32 h = h) by (apply Z.mod_small; lia). rewrite U. apply Z.eqb_eq.
Qed.
Print Assumptions C99_open_later.

(* a client that is refused leaves nothing behind, if the driver takes the timeout exactly or
   refuses it *)
Theorem C99_open_refused_partial : forall d path s h s' a l, 0 < h < 2 ^ 31 -> enable s = false -> fd_open s = false ->
  (forall x, setr d (s32 h) = Some x -> x = s32 h) ->
  open_wd d path s h = (s', a, l) -> client_open h (Some a) = false ->
  s' = s /\ a = 0 /\ count_open l = 0 /\ (v_ok d = true -> exists k, krun k0 l = Some k /\ armed k = []).
Proof.
  intros d path s h s' a l Hh He Hf Hx Ho Hc. unfold open_wd in Ho. rewrite He, Hf in Ho.
  assert (U : u32 h = h) by (apply Z.mod_small; lia). unfold client_open in Hc. rewrite U in Hc. apply Z.eqb_neq in Hc.
  assert (Z0 : h =? 0 = false) by (apply Z.eqb_neq; lia). rewrite Z0 in Ho.
  assert (S : s32 h = h). { unfold s32. fold (u32 h). rewrite U. cbv zeta. destruct (Z.ltb_spec h (2 ^ 31)); lia. }
  destruct (open_ok d); cbn [negb] in Ho; [|injection Ho as <- <- <-; cbn; split; [|split; [|split]]; auto; intros _; exists k0; auto].
  destruct (get0 d) as [g|];
    [|injection Ho as <- <- <-; cbn; split; [|split; [|split]]; auto; intros ->; eexists; split; [reflexivity|]; cbn; rewrite String.eqb_refl; reflexivity].
  destruct (Z.eqb_spec (u32 g) h) as [e | _]; [injection Ho as _ <- _; congruence|]. cbv zeta in Ho.
  destruct (setr d (s32 h)) as [x|] eqn:Es;
    [|injection Ho as <- <- <-; cbn; split; [|split; [|split]]; auto; intros ->; eexists; split; [reflexivity|]; cbn; rewrite String.eqb_refl; reflexivity].
  destruct (get1 d) as [g1|];
    [|injection Ho as <- <- <-; cbn; split; [|split; [|split]]; auto; intros ->; eexists; split; [reflexivity|]; cbn; rewrite String.eqb_refl; reflexivity].
  destruct (Z.eqb_spec g1 x) as [e | _].
  - injection Ho as _ E _. specialize (Hx x eq_refl). exfalso. apply Hc. subst. rewrite S. exact U.
  - injection Ho as <- <- <-; cbn; split; [|split; [|split]]; auto; intros ->; eexists; split; [reflexivity|]; cbn; rewrite String.eqb_refl; reflexivity.
Qed.
Print Assumptions C99_open_refused_partial.

(* ---- what is not so ---- *)
Definition none : drv := mkDrv false false None (fun _ => None) None false false.
Definition good : drv := mkDrv true true (Some 60) (fun v => Some v) (Some 10) true true.
Definition idle : wd := mkWd false false 60 10.

(* the driver writes the timeout it chose into the argument, so the comparison that is to find
   out compares the driver's value with itself: 10 is asked for, the device runs with 16, the
   client is refused and the device stays open and armed *)
Definition rounding : drv := mkDrv true true (Some 60) (fun v => Some 16) (Some 16) true true.
Theorem C99_open_refused_refuted : exists d s' a l, open_wd d WD0 idle 10 = (s', a, l) /\ client_open 10 (Some a) = false /\
  enable s' = true /\ fd_open s' = true /\ fire s' = 16 /\ exists k, krun k0 l = Some k /\ armed k = [WD0].
Proof. exists rounding. eexists. eexists. eexists. split; [reflexivity|]. vm_compute. split; [|split; [|split; [|split]]]; auto. eexists. split; reflexivity. Qed.
Print Assumptions C99_open_refused_refuted.

(* the probe finds the second device, the daemon uses the first, which cannot be set *)
Definition fixed : drv := mkDrv true true (Some 30) (fun _ => None) None true true.
Definition two (p : string) : drv := if (p =? WD0)%string then fixed else if (p =? WD1)%string then good else none.
Theorem C99_agree_refuted : exists D, fst (probe D "" "" 0 false) = Some WD1 /\ fst (setup D "" "") = Some WD0 /\
  (let '(_, a, _) := open_wd (D WD0) WD0 idle 60 in client_open 60 (Some a)) = false /\
  (let '(_, a, _) := open_wd (D WD1) WD1 idle 60 in client_open 60 (Some a)) = true.
Proof. exists two. vm_compute. auto. Qed.
Print Assumptions C99_agree_refuted.

(* a device that does not take the "V" is left armed and nobody pets it, and wdmd starts *)
Definition sticky (p : string) : drv := if (p =? WD0)%string then mkDrv true true (Some 60) (fun v => Some v) None true false else none.
Theorem C99_armed_refuted : exists D k, fst (setup D "" "") = Some WD0 /\ krun k0 (snd (setup D "" "")) = Some k /\ cur k = None /\ armed k = [WD0].
Proof. exists sticky. eexists. vm_compute. auto. Qed.
Print Assumptions C99_armed_refuted.

(* wdmd -t 10 succeeds with a device that goes on reporting 60 *)
Definition liar (p : string) : drv := if (p =? WD0)%string then mkDrv true true (Some 60) (fun v => Some v) (Some 60) true true else none.
Theorem C99_try_refuted : exists D, fst (probe D "" "" 10 false) = Some WD0 /\ reported (snd (probe D "" "" 10 false)) = Some 60.
Proof. exists liar. vm_compute. auto. Qed.
Print Assumptions C99_try_refuted.

(* a path of 64 or more bytes after -w is cut and another device is used *)
Definition long := "/dev/disk/by-path/pci-0000:00:1f.0-platform-iTCO_wdt-watchdog-00".
Definition only_long (p : string) : drv := if (p =? long)%string then good else if (p =? WD0)%string then good else none.
Theorem C99_path_refuted : exists D w, answers (D w) = true /\ String.length w = 64%nat /\ fst (setup D "" w) = Some WD0.
Proof. exists only_long, long. vm_compute. auto. Qed.
Print Assumptions C99_path_refuted.

(* a timeout of 0 is refused by wdmd, which the library takes for success, also when wdmd is
   gone; the status of a wdmd that is gone is whatever was in memory *)
Theorem C99_zero_refuted : (forall d path s, enable s = false -> open_wd d path s 0 = (s, 0, []) /\ client_open 0 (Some 0) = true) /\
  client_open 0 None = true /\ client_status None = Indeterminate.
Proof. split; [|split; reflexivity]. intros d path s H. unfold open_wd. rewrite H. split; reflexivity. Qed.
Print Assumptions C99_zero_refuted.

Example C99_nonvacuous :
  order "" (cut "/dev/watchdog1") = ["/dev/watchdog1"; "/dev/watchdog0"; "/dev/watchdog"] /\
  fst (setup two "" "/dev/watchdog1") = Some WD1 /\ opened (snd (setup two "" "/dev/watchdog1")) = [WD1] /\
  opened (snd (probe two "" "" 0 false)) = [WD0; WD1] /\ fst (setup (fun _ => none) "" "") = None /\
  open_wd good WD0 idle 10 = (mkWd true true 10 2, 10, [EOpen WD0 true; EGet (Some 60); ESet 10 (Some 10); EGet (Some 10); EKeep true]) /\
  open_wd fixed WD0 idle 60 = (idle, 0, [EOpen WD0 true; EGet (Some 30); ESet 60 None; EV true; EClose]).
Proof. vm_compute. auto 12. Qed.
