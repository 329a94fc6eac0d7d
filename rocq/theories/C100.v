(* C100: sanlk-resetd watches the lockspaces it was told to watch, and no others; a connection it
   registered is in its table until it is ended, once. *)
From Coq Require Import List String Ascii NArith ZArith Bool Arith Lia.
From Verif Require Import RegTable.
Import ListNotations.
Open Scope string_scope. Open Scope list_scope. Open Scope nat_scope.

(* ---- specification ---- *)
(* a lockspace is watched: a slot has its name and is polled on the connection c *)
Definition watched (T : table) (n : string) (c : N) : Prop := exists i, i < 64 /\ nm (T i) = Some n /\ pfd (T i) = Some c.
Definition known (T : table) (n : string) : Prop := exists i, i < 64 /\ nm (T i) = Some n.
(* a slot is whole: with a name and a connection, or free; what is polled is that connection *)
Definition whole (s : slot) : Prop :=
  match nm s with Some _ => fd s <> None /\ (pfd s = None \/ pfd s = fd s) | None => fd s = None /\ pfd s = None end.
Definition whole_table (T : table) : Prop := forall i, i < 64 -> whole (T i).
Definition distinct (T : table) : Prop := forall i j n, i < 64 -> j < 64 -> nm (T i) = Some n -> nm (T j) = Some n -> i = j.
(* how often a connection (None: any) is in the table, was registered, was ended *)
Definition is (o : option N) (c : option N) : nat :=
  match o, c with None, _ => 0 | Some _, None => 1 | Some d, Some e => if N.eqb e d then 1 else 0 end.
Fixpoint sum (f : nat -> nat) (l : list nat) : nat := match l with [] => 0 | i :: l => f i + sum f l end.
Definition live (T : table) (c : option N) : nat := sum (fun i => is (fd (T i)) c) (seq 0 64).
Fixpoint regs (l : list act) (c : option N) : nat := match l with [] => 0 | AReg _ r :: l => is r c + regs l c | _ :: l => regs l c end.
Fixpoint ends (l : list act) (c : option N) : nat := match l with [] => 0 | AEnd d _ :: l => is d c + ends l c | _ :: l => ends l c end.
(* ends of nothing *)
Fixpoint voids (l : list act) : nat := match l with [] => 0 | AEnd None _ :: l => S (voids l) | _ :: l => voids l end.
(* names of messages: not empty, no white space, and with the command at most 255 bytes *)
Definition white (c : ascii) : bool := existsb (Ascii.eqb c) [" "; "009"; "010"; "011"; "012"; "013"]%char.
Fixpoint plain (s : string) : bool := match s with EmptyString => true | String c r => negb (white c) && plain r end.
Definition told (m : option string) (cmd n : string) : Prop := exists t, m = Some t /\ parse t = Some (cmd, n).

(* ---- messages ---- *)
Lemma white_space : forall c, white c = space c.
Proof. intros [[|] [|] [|] [|] [|] [|] [|] [|]]; reflexivity. Qed.
Lemma word_plain : forall s r, plain s = true -> word (s ++ String " " r)%string = (s, String " " r).
Proof. induction s as [|c s IH]; intros r H; [reflexivity|]. cbn -[white space] in *. rewrite white_space in H. destruct (space c); [discriminate|]. rewrite IH by exact H. reflexivity. Qed.
Lemma word_end : forall s, plain s = true -> word s = (s, EmptyString).
Proof. induction s as [|c s IH]; intros H; [reflexivity|]. cbn -[white space] in *. rewrite white_space in H. destruct (space c); [discriminate|]. rewrite IH by exact H. reflexivity. Qed.
Lemma skip_plain : forall s r, plain s = true -> s <> EmptyString -> skip (s ++ r)%string = (s ++ r)%string.
Proof. intros [|c s] r H N; [congruence|]. cbn -[white space] in *. rewrite white_space in H. destruct (space c); [discriminate|reflexivity]. Qed.
Lemma sub_id : forall s n, String.length s <= n -> substring 0 n s = s.
Proof. induction s as [|c s IH]; intros [|n] H; cbn in *; auto; [lia|]. f_equal. apply IH. lia. Qed.
Lemma str_len : forall a b, String.length (a ++ b)%string = String.length a + String.length b.
Proof. induction a; intros b; cbn; [reflexivity|]. rewrite IHa. reflexivity. Qed.
Lemma str_nil : forall a, (a ++ "")%string = a.
Proof. induction a; cbn; [reflexivity|]. rewrite IHa. reflexivity. Qed.

(* sanlk-resetd understands what sanlk-reset sends *)
Theorem C100_message_partial : forall cmd n, plain cmd = true -> plain n = true -> cmd <> "" -> n <> "" ->
  String.length cmd + 1 + String.length n <= 255 -> parse (message cmd n) = Some (cmd, n).
Proof.
  intros cmd n Pc Pn Nc Nn L. unfold message. rewrite sub_id by (rewrite !str_len; cbn; lia). unfold parse.
  rewrite skip_plain by assumption. cbn [String.append]. rewrite word_plain by exact Pc.
  destruct cmd as [|a cmd]; [congruence|]. cbn [skip space nat_of_ascii]. change (space " ") with true. cbn iota.
  pose proof (skip_plain n "" Pn Nn) as S. rewrite str_nil in S. rewrite S, word_end by exact Pn. destruct n; [congruence|reflexivity].
Qed.
Print Assumptions C100_message_partial.

(* ---- the table stays whole ---- *)
Lemma find_seq : forall (f : nat -> bool) i, find f (seq 0 MAX_LS) = Some i -> i < 64 /\ f i = true.
Proof. intros f i H. apply find_some in H as [H F]. apply in_seq in H. unfold MAX_LS in H. split; [lia|exact F]. Qed.
Lemma find_none_seq : forall (f : nat -> bool) i, find f (seq 0 MAX_LS) = None -> i < 64 -> f i = false.
Proof. intros f i H L. apply (find_none _ _ H). apply in_seq. unfold MAX_LS. lia. Qed.
Lemma put_same : forall T i s, put T i s i = s.
Proof. intros. unfold put. rewrite Nat.eqb_refl. reflexivity. Qed.
Lemma put_other : forall T i j s, j <> i -> put T i s j = T j.
Proof. intros T i j s H. unfold put. apply Nat.eqb_neq in H. rewrite H. reflexivity. Qed.
Lemma whole_unreg : forall s, whole (unreg s).
Proof. intros s. split; reflexivity. Qed.
Lemma whole_register : forall T i n d r, fd (T i) = None -> pfd (T i) = None -> whole (fst (register T i n d r) i).
Proof. intros T i n d r F P. unfold register. destruct d; cbn [negb]; [destruct r|]; cbn [fst]; rewrite put_same; unfold whole; cbn [nm fd pfd]; auto. split; [discriminate|auto]. Qed.
Lemma register_other : forall T i j n d r, j <> i -> fst (register T i n d r) j = T j.
Proof. intros T i j n d r H. unfold register. destruct d; cbn [negb]; [destruct r|]; cbn [fst]; apply put_other; exact H. Qed.
Lemma whole_free : forall s, whole s -> nm s = None -> fd s = None /\ pfd s = None.
Proof. intros s H E. unfold whole in H. rewrite E in H. exact H. Qed.
Lemma whole_update : forall T m d r, whole_table T -> whole_table (fst (update T m d r)).
Proof.
  intros T m d r H. unfold update. destruct (parse m) as [[cmd n]|]; [|exact H].
  destruct (cmd =? "reg")%string.
  - destruct (find_ls T n) as [i|] eqn:E.
    + pose proof (whole_register (put T i (unreg (T i))) i n d r) as W. pose proof (fun j => register_other (put T i (unreg (T i))) i j n d r) as O.
      destruct (register _ _ _ _ _) as [T' a]. cbn [fst] in *. intros j Hj. destruct (Nat.eq_dec j i) as [-> | Hn].
      * apply W; rewrite put_same; reflexivity.
      * rewrite O, put_other by exact Hn. apply H; exact Hj.
    + destruct (find_free T) as [i|] eqn:F; [|exact H]. apply find_seq in F as [Hi Fi]. destruct (nm (T i)) eqn:En; [discriminate|].
      destruct (whole_free _ (H i Hi) En) as [A B]. intros j Hj. destruct (Nat.eq_dec j i) as [-> | Hn]; [apply whole_register; assumption|].
      rewrite register_other by exact Hn. apply H; exact Hj.
  - destruct (cmd =? "end")%string.
    + destruct (find_ls T n) as [i|]; [|exact H]. cbn [fst]. intros j Hj. unfold put. destruct (j =? i); [apply whole_unreg|apply H; exact Hj].
    + destruct (cmd =? "clear")%string; [|exact H]. cbn [fst]. intros j Hj. unfold clear_all. destruct (nm (T j)) eqn:E; [|apply H; exact Hj].
      destruct (j <? MAX_LS); [apply whole_unreg|apply H; exact Hj].
Qed.
Lemma whole_polled : forall rv T, whole_table T -> whole_table (polled rv T).
Proof. intros rv T H i Hi. specialize (H i Hi). unfold polled, whole in *. destruct (pfd (T i)); exact H. Qed.
Lemma whole_visit : forall g s, whole s -> whole (fst (visit g s)).
Proof.
  intros g s H. unfold visit. destruct (pin s).
  - destruct g; cbn.
    + destruct (phup s); cbn [fst]; [apply whole_unreg|exact H].
    + destruct (phup s); apply whole_unreg.
    + destruct (phup s); cbn [fst]; [apply whole_unreg|]. unfold whole in *. cbn [nm fd pfd]. destruct (nm s); [destruct H; auto|destruct H; auto].
  - destruct (phup s); cbn [fst]; [apply whole_unreg|exact H].
Qed.
Lemma whole_pass : forall T r, whole_table T -> whole_table (fst (pass T r)).
Proof.
  intros T r H. unfold pass. apply (whole_polled (rev r)) in H. set (T1 := polled (rev r) T) in *. clearbody T1.
  destruct (match msg r with Some m => update T1 m (dup_ok r) (regr r) | None => (T1, []) end) as [T2 a] eqn:E. cbn [fst].
  assert (W : whole_table T2). { destruct (msg r) as [m|]; [|injection E as <- _; exact H]. pose proof (whole_update T1 m (dup_ok r) (regr r) H) as W. rewrite E in W. exact W. }
  intros i Hi. unfold visits. destruct (i <? MAX_LS); [apply whole_visit|]; apply W; exact Hi.
Qed.
Lemma whole_passes : forall l T, whole_table T -> whole_table (fst (passes T l)).
Proof.
  induction l as [|r l IH]; intros T H; [exact H|]. cbn [passes]. apply (whole_pass T r) in H. destruct (pass T r) as [T1 a]. cbn [fst] in H.
  specialize (IH T1 H). destruct (passes T1 l). exact IH.
Qed.
Lemma start_whole_from : forall l i T, whole_table T -> (forall j, i <= j -> nm (T j) = None /\ fd (T j) = None /\ pfd (T j) = None) -> whole_table (fst (start_from i T l)).
Proof.
  induction l as [|[[n d] r] l IH]; intros i T H E; [exact H|]. cbn [start_from]. destruct (i <? MAX_LS); [|exact H].
  pose proof (register_other T i) as O. pose proof (whole_register T i n d r) as W.
  specialize (O) . destruct (register T i n d r) as [T1 a] eqn:R. cbn [fst] in *.
  assert (O' : forall j, j <> i -> T1 j = T j). { intros j Hj. specialize (O j n d r Hj). rewrite R in O. exact O. }
  specialize (IH (S i) T1). destruct (start_from (S i) T1 l). cbn [fst] in *. apply IH.
  - intros j Hj. destruct (Nat.eq_dec j i) as [-> | Hn]; [apply W; apply E; lia|rewrite O' by exact Hn; apply H; exact Hj].
  - intros j Hj. rewrite O' by lia. apply E. lia.
Qed.
Lemma start_whole : forall l, whole_table (fst (start l)).
Proof. intros l. apply start_whole_from; [|auto]. intros i _. split; reflexivity. Qed.

(* whatever was asked for and whatever failed: a slot has a name and a connection or neither *)
Theorem C100_whole : forall names l, whole_table (fst (passes (fst (start names)) l)).
Proof. intros. apply whole_passes, start_whole. Qed.
Print Assumptions C100_whole.

(* ---- no connection is lost or ended twice ---- *)
Lemma sum_ext : forall f g l, (forall i, In i l -> f i = g i) -> sum f l = sum g l.
Proof. induction l as [|i l IH]; intros H; [reflexivity|]. cbn. rewrite (H i) by (left; reflexivity). rewrite IH by (intros; apply H; right; assumption). reflexivity. Qed.
Lemma sum_one : forall f g l i, NoDup l -> In i l -> (forall j, In j l -> j <> i -> f j = g j) -> sum f l + g i = sum g l + f i.
Proof.
  induction l as [|k l IH]; intros i ND Hi H; [destruct Hi|]. inversion ND as [|? ? Nk ND']. subst. cbn. destruct Hi as [-> | Hi].
  - rewrite (sum_ext f g l); [lia|]. intros j Hj. apply H; [right; exact Hj|]. intros ->. contradiction.
  - assert (E : f k = g k) by (apply H; [left; reflexivity|intros ->; contradiction]). specialize (IH i ND' Hi (fun j Hj => H j (or_intror Hj))). lia.
Qed.
Lemma sum_plus : forall f g l, sum (fun i => f i + g i) l = sum f l + sum g l.
Proof. induction l as [|i l IH]; [reflexivity|]. cbn. rewrite IH. lia. Qed.
Lemma regs_app : forall a b c, regs (a ++ b) c = regs a c + regs b c.
Proof. induction a as [|x a IH]; intros b c; [reflexivity|]. destruct x; cbn; rewrite IH; lia. Qed.
Lemma ends_app : forall a b c, ends (a ++ b) c = ends a c + ends b c.
Proof. induction a as [|x a IH]; intros b c; [reflexivity|]. destruct x; cbn; rewrite IH; lia. Qed.
Lemma live_put : forall T i s c, i < 64 -> live (put T i s) c + is (fd (T i)) c = live T c + is (fd s) c.
Proof.
  intros T i s c Hi. unfold live. pose proof (sum_one (fun j => is (fd (put T i s j)) c) (fun j => is (fd (T j)) c) (seq 0 64) i (seq_NoDup 64 0)) as H.
  cbn beta in H. rewrite put_same in H. apply H; [apply in_seq; lia|]. intros j _ Hj. rewrite put_other by exact Hj. reflexivity.
Qed.
Lemma live_register : forall T i n d r c, i < 64 -> fd (T i) = None -> live (fst (register T i n d r)) c = live T c + regs (snd (register T i n d r)) c /\ ends (snd (register T i n d r)) c = 0.
Proof.
  intros T i n d r c Hi F. unfold register. destruct d; cbn [negb]; [destruct r as [x|]|]; cbn [fst snd regs ends];
  match goal with |- context [put T i ?s] => pose proof (live_put T i s c Hi) as L end; cbn [fd] in L; rewrite ?F in L; rewrite ?F; cbn [is] in *; lia.
Qed.
Definition flows (T T' : table) (a : list act) : Prop := forall c, live T' c + ends a c = live T c + regs a c.
Lemma flows_update : forall T m d r, whole_table T -> flows T (fst (update T m d r)) (snd (update T m d r)).
Proof.
  intros T m d r W c. unfold update. destruct (parse m) as [[cmd n]|]; [|cbn; lia].
  destruct (cmd =? "reg")%string.
  - destruct (find_ls T n) as [i|] eqn:E.
    + apply find_seq in E as [Hi _]. pose proof (live_register (put T i (unreg (T i))) i n d r c Hi) as L. rewrite put_same in L. specialize (L eq_refl).
      pose proof (live_put T i (unreg (T i)) c Hi) as P. destruct (register _ _ _ _ _) as [T' a]. cbn [fst snd] in *. cbn [ends regs end_act unreg fd is] in *. lia.
    + destruct (find_free T) as [i|] eqn:F; [|cbn; lia]. apply find_seq in F as [Hi Fi]. destruct (nm (T i)) eqn:En; [discriminate|].
      destruct (whole_free _ (W i Hi) En) as [A _]. pose proof (live_register T i n d r c Hi A). lia.
  - destruct (cmd =? "end")%string.
    + destruct (find_ls T n) as [i|] eqn:E; [|cbn; lia]. apply find_seq in E as [Hi _]. pose proof (live_put T i (unreg (T i)) c Hi). cbn [fst snd ends regs end_act unreg fd is] in *. lia.
    + destruct (cmd =? "clear")%string; [|cbn; lia]. cbn [fst snd]. unfold live, clear_acts, clear_all.
      assert (G : forall l, (forall i, In i l -> i < 64) -> sum (fun i => is (fd (match nm (T i) with Some _ => if i <? MAX_LS then unreg (T i) else T i | None => T i end)) c) l +
        ends (flat_map (fun i => match nm (T i) with Some _ => [end_act (T i)] | None => [] end) l) c =
        sum (fun i => is (fd (T i)) c) l + regs (flat_map (fun i => match nm (T i) with Some _ => [end_act (T i)] | None => [] end) l) c).
      { induction l as [|i l IH]; intros Hl; [reflexivity|]. specialize (IH (fun j Hj => Hl j (or_intror Hj))). pose proof (Hl i (or_introl eq_refl)) as Li.
        cbn [sum flat_map]. assert (B : i <? MAX_LS = true) by (apply Nat.ltb_lt; exact Li). rewrite B. destruct (nm (T i)); cbn [app ends regs end_act unreg fd is] in *; lia. }
      apply G. intros i Hi. apply in_seq in Hi. exact (proj2 Hi).
Qed.
Lemma flows_visit : forall g s c, is (fd (fst (visit g s))) c + ends (snd (visit g s)) c = is (fd s) c + regs (snd (visit g s)) c.
Proof. intros g s c. unfold visit. destruct (pin s); [destruct g|]; cbn [unreg phup]; destruct (phup s); cbn [fst snd app ends regs end_act unreg fd is]; lia. Qed.
Lemma flows_visits : forall g T, flows T (visits g T) (visit_acts g T).
Proof.
  intros g T c. unfold live, visit_acts, visits.
  assert (G : forall l, (forall i, In i l -> i < 64) -> sum (fun i => is (fd (if i <? MAX_LS then fst (visit (g i) (T i)) else T i)) c) l + ends (flat_map (fun i => snd (visit (g i) (T i))) l) c =
    sum (fun i => is (fd (T i)) c) l + regs (flat_map (fun i => snd (visit (g i) (T i))) l) c).
  { induction l as [|i l IH]; intros Hl; [reflexivity|]. specialize (IH (fun j Hj => Hl j (or_intror Hj))). pose proof (Hl i (or_introl eq_refl)) as Li.
    cbn [sum flat_map]. assert (B : i <? MAX_LS = true) by (apply Nat.ltb_lt; exact Li). rewrite B, ends_app, regs_app. pose proof (flows_visit (g i) (T i) c). lia. }
  apply G. intros i Hi. apply in_seq in Hi. exact (proj2 Hi).
Qed.
Lemma live_polled : forall rv T c, live (polled rv T) c = live T c.
Proof. intros. unfold live. apply sum_ext. intros i _. unfold polled. destruct (pfd (T i)); reflexivity. Qed.
Lemma flows_pass : forall T r, whole_table T -> flows T (fst (pass T r)) (snd (pass T r)).
Proof.
  intros T r W c. unfold pass. apply (whole_polled (rev r)) in W. rewrite <- (live_polled (rev r) T c). set (T1 := polled (rev r) T) in *. clearbody T1.
  destruct (match msg r with Some m => update T1 m (dup_ok r) (regr r) | None => (T1, []) end) as [T2 a] eqn:E. cbn [fst snd].
  assert (F : live T2 c + ends a c = live T1 c + regs a c).
  { destruct (msg r) as [m|]; [|injection E as <- <-; cbn; lia]. pose proof (flows_update T1 m (dup_ok r) (regr r) W c) as F. rewrite E in F. exact F. }
  pose proof (flows_visits (gevs r) T2 c) as V. rewrite ends_app, regs_app. lia.
Qed.
Lemma flows_passes : forall l T, whole_table T -> flows T (fst (passes T l)) (snd (passes T l)).
Proof.
  induction l as [|r l IH]; intros T W c; [cbn; lia|]. cbn [passes]. pose proof (flows_pass T r W c) as F. apply (whole_pass T r) in W.
  destruct (pass T r) as [T1 a]. cbn [fst snd] in *. specialize (IH T1 W c). destruct (passes T1 l) as [T2 b]. cbn [fst snd] in *. rewrite ends_app, regs_app. lia.
Qed.

(* every connection is in the table as often as it was registered and not ended: with fresh
   descriptors none is lost, none is ended twice *)
Theorem C100_connections : forall T l c, whole_table T ->
  live (fst (passes T l)) c + ends (snd (passes T l)) c = live T c + regs (snd (passes T l)) c.
Proof. intros T l c W. exact (flows_passes l T W c). Qed.
Print Assumptions C100_connections.

(* ls_count is the number of connections, less the times a slot was ended that had none *)
Lemma count_acts : forall a, (ls_count a + Z.of_nat (ends a None) + Z.of_nat (voids a) = Z.of_nat (regs a None))%Z.
Proof.
  induction a as [|x a IH]; [reflexivity|]. change (ls_count (x :: a)) with (delta x + ls_count a)%Z. destruct x as [n [c|] | [c|] n]; cbn [delta regs ends voids is]; lia.
Qed.
Theorem C100_count : forall T l, whole_table T ->
  (ls_count (snd (passes T l)) = Z.of_nat (live (fst (passes T l)) None) - Z.of_nat (live T None) - Z.of_nat (voids (snd (passes T l))))%Z.
Proof. intros T l W. pose proof (flows_passes l T W None). pose proof (count_acts (snd (passes T l))). lia. Qed.
Print Assumptions C100_count.

(* no such end without a message, unless a connection hangs up whose events could not be read, and
   none if nothing came in on the connections *)
Lemma voids_app : forall a b, voids (a ++ b) = voids a + voids b.
Proof. induction a as [|x a IH]; intros b; [reflexivity|]. destruct x as [n c | [c|] n]; cbn [app voids]; rewrite IH; reflexivity. Qed.
Lemma voids_flat : forall (f : nat -> list act) l, (forall i, In i l -> voids (f i) = 0) -> voids (flat_map f l) = 0.
Proof. induction l as [|i l IH]; intros H; [reflexivity|]. cbn [flat_map]. rewrite voids_app, H by (left; reflexivity). apply IH. intros; apply H; right; assumption. Qed.
Lemma voids_end : forall s, whole s -> nm s <> None -> voids [end_act s] = 0.
Proof. intros s W N. unfold whole in W. destruct (nm s); [|contradiction]. destruct W as [F _]. unfold end_act. destruct (fd s); [reflexivity|contradiction]. Qed.
Lemma voids_register : forall T i n d r, voids (snd (register T i n d r)) = 0.
Proof. intros. unfold register. destruct d; cbn [negb]; [destruct r|]; reflexivity. Qed.
Definition quiet_slots (T : table) : Prop := forall i, i < 64 -> pin (T i) = false /\ phup (T i) = false.
Lemma quiet_put : forall T i s, quiet_slots T -> pin s = pin (T i) -> phup s = phup (T i) -> quiet_slots (put T i s).
Proof. intros T i s Q P H j Hj. unfold put. destruct (Nat.eqb_spec j i) as [-> | _]; [rewrite P, H|]; apply Q; exact Hj. Qed.
Lemma quiet_register : forall T i n d r, quiet_slots T -> quiet_slots (fst (register T i n d r)).
Proof. intros T i n d r Q. unfold register. destruct d; cbn [negb]; [destruct r|]; cbn [fst]; apply quiet_put; auto. Qed.
Lemma update_quiet : forall T m d r, whole_table T -> quiet_slots T -> voids (snd (update T m d r)) = 0 /\ quiet_slots (fst (update T m d r)).
Proof.
  intros T m d r W Q. unfold update. destruct (parse m) as [[cmd n]|]; [|split; [reflexivity|exact Q]].
  assert (V : forall i, find_ls T n = Some i -> voids [end_act (T i)] = 0).
  { intros i E. apply find_seq in E as [Hi F]. apply voids_end; [apply W; exact Hi|]. destruct (nm (T i)); discriminate. }
  assert (U : forall i, quiet_slots (put T i (unreg (T i)))) by (intros i; apply quiet_put; auto).
  destruct (cmd =? "reg")%string.
  - destruct (find_ls T n) as [i|].
    + pose proof (voids_register (put T i (unreg (T i))) i n d r) as A. pose proof (quiet_register (put T i (unreg (T i))) i n d r (U i)) as B.
      destruct (register _ _ _ _ _) as [T' a]. cbn [fst snd] in *. split; [|exact B]. change (end_act (T i) :: a) with ([end_act (T i)] ++ a). rewrite voids_app, V, A; reflexivity.
    + destruct (find_free T) as [i|]; [split; [apply voids_register|apply quiet_register; exact Q]|split; [reflexivity|exact Q]].
  - destruct (cmd =? "end")%string.
    + destruct (find_ls T n) as [i|]; [|split; [reflexivity|exact Q]]. cbn [fst snd]. split; [apply V; reflexivity|apply U].
    + destruct (cmd =? "clear")%string; [|split; [reflexivity|exact Q]]. cbn [fst snd]. split.
      * apply voids_flat. intros i Hi. apply in_seq in Hi. destruct (nm (T i)) eqn:E; [|reflexivity]. apply voids_end; [apply W; exact (proj2 Hi)|congruence].
      * intros i Hi. unfold clear_all. destruct (nm (T i)); [destruct (i <? MAX_LS)|]; apply Q; exact Hi.
Qed.
Theorem C100_count_partial : forall T r, whole_table T ->
  (msg r = None /\ (forall i, i < 64 -> rev r i = (true, true) -> gevs r i <> GErr)) \/ (forall i, i < 64 -> rev r i = (false, false)) ->
  voids (snd (pass T r)) = 0.
Proof.
  intros T r W H. unfold pass. pose proof (whole_polled (rev r) T W) as W1. destruct H as [[E H] | H].
  - rewrite E. cbn [snd app]. apply voids_flat. intros i Hi. apply in_seq in Hi. pose proof (proj2 Hi) as Li. change (0 + MAX_LS) with 64 in Li.
    specialize (W1 i Li). specialize (H i Li). unfold polled in *. destruct (pfd (T i)) as [c|] eqn:P.
    + assert (N : voids [AEnd (fd (T i)) (nm (T i))] = 0).
      { unfold whole in W1. cbn [nm fd pfd] in W1. destruct (nm (T i)); [|destruct W1; discriminate]. destruct (fd (T i)); [reflexivity|destruct W1; contradiction]. }
      destruct (rev r i) as [[|] [|]]; unfold visit; cbn [fst snd pin phup]; try (destruct (gevs r i) eqn:G); cbn [unreg phup app end_act fd nm fst snd]; try reflexivity; try exact N.
      exfalso. apply H; reflexivity.
    + unfold visit. cbn [pin phup]. reflexivity.
  - assert (Q : quiet_slots (polled (rev r) T)). { intros i Hi. unfold polled. rewrite (H i Hi). destruct (pfd (T i)); split; reflexivity. }
    assert (G : forall T2, quiet_slots T2 -> voids (visit_acts (gevs r) T2) = 0).
    { intros T2 Q2. apply voids_flat. intros i Hi. apply in_seq in Hi. destruct (Q2 i (proj2 Hi)) as [A B]. unfold visit. rewrite A, B. reflexivity. }
    destruct (msg r) as [m|].
    + destruct (update_quiet (polled (rev r) T) m (dup_ok r) (regr r) W1 Q) as [A B]. destruct (update _ _ _ _) as [T2 a]. cbn [fst snd] in *. rewrite voids_app, A, G by exact B. reflexivity.
    + cbn [snd app]. apply G. exact Q.
Qed.
Print Assumptions C100_count_partial.

(* ---- what a pass does to one slot ---- *)
Lemma visit_name : forall g s n, nm (fst (visit g s)) = Some n -> nm s = Some n.
Proof. intros g s n. unfold visit. destruct (pin s); [destruct g|]; cbn [unreg phup]; destruct (phup s); cbn [fst nm unreg]; congruence. Qed.
Lemma visit_quiet : forall g s, phup s = false -> (pin s = true -> g = GNone) -> fst (visit g s) = s.
Proof. intros g s H P. unfold visit. destruct (pin s); [rewrite P by reflexivity|]; rewrite H; reflexivity. Qed.
Lemma polled_nm : forall rv T i, nm (polled rv T i) = nm (T i).
Proof. intros. unfold polled. destruct (pfd (T i)); reflexivity. Qed.
Lemma pass_slot : forall T r i, i < 64 ->
  fst (pass T r) i = fst (visit (gevs r i) (fst (match msg r with Some m => update (polled (rev r) T) m (dup_ok r) (regr r) | None => (polled (rev r) T, []) end) i)).
Proof.
  intros T r i Hi. unfold pass. destruct (match msg r with Some m => _ | None => _ end) as [T2 a]. cbn [fst]. unfold visits.
  assert (B : i <? MAX_LS = true) by (apply Nat.ltb_lt; exact Hi). rewrite B. reflexivity.
Qed.

(* a lockspace that is to be watched is watched, if nothing has come in for its old connection *)
Theorem C100_reg_partial : forall T r n c, whole_table T -> told (msg r) "reg" n -> dup_ok r = true -> regr r = Some c ->
  (known T n \/ exists i, i < 64 /\ nm (T i) = None) ->
  (forall i, i < 64 -> nm (T i) = Some n -> snd (rev r i) = false /\ (fst (rev r i) = true -> gevs r i = GNone)) ->
  watched (fst (pass T r)) n c.
Proof.
  intros T r n c W (m & Em & Ep) Ed Er Hroom Hq.
  set (T1 := polled (rev r) T). pose proof (whole_polled (rev r) T W) as W1. fold T1 in W1.
  assert (G : exists i, i < 64 /\ nm (fst (update T1 m (dup_ok r) (regr r)) i) = Some n /\ pfd (fst (update T1 m (dup_ok r) (regr r)) i) = Some c /\
    phup (fst (update T1 m (dup_ok r) (regr r)) i) = false /\ (pin (fst (update T1 m (dup_ok r) (regr r)) i) = true -> gevs r i = GNone)).
  { rewrite Ed, Er. unfold update. rewrite Ep. change ("reg" =? "reg")%string with true. cbn iota.
    destruct (find_ls T1 n) as [i|] eqn:E.
    - apply find_seq in E as [Hi F]. exists i. split; [exact Hi|]. unfold T1 in F. rewrite polled_nm in F. destruct (nm (T i)) as [k|] eqn:En; [|discriminate].
      apply String.eqb_eq in F. subst k. destruct (Hq i Hi En) as [H1 H2]. unfold register. cbn [negb fst]. rewrite !put_same. cbn [nm pfd phup pin unreg].
      split; [reflexivity|]. split; [reflexivity|]. unfold T1, polled. destruct (pfd (T i)); cbn [phup pin]; split; auto; discriminate.
    - destruct (find_free T1) as [i|] eqn:F.
      + apply find_seq in F as [Hi F]. exists i. split; [exact Hi|]. destruct (nm (T1 i)) eqn:En; [discriminate|]. destruct (whole_free _ (W1 i Hi) En) as [_ P].
        unfold register. cbn [negb fst]. rewrite !put_same. cbn [nm pfd phup pin]. split; [reflexivity|]. split; [reflexivity|].
        unfold T1, polled in *. destruct (pfd (T i)); cbn [pfd phup pin] in *; [discriminate|]. split; [reflexivity|discriminate].
      + exfalso. destruct Hroom as [(i & Hi & K) | (i & Hi & K)].
        * pose proof (find_none_seq _ i E Hi) as X. cbn beta in X. unfold T1 in X. rewrite polled_nm, K, String.eqb_refl in X. discriminate.
        * pose proof (find_none_seq _ i F Hi) as X. cbn beta in X. unfold T1 in X. rewrite polled_nm, K in X. discriminate. }
  destruct G as (i & Hi & G1 & G2 & G3 & G4). exists i. rewrite pass_slot by exact Hi. rewrite Em. fold T1. rewrite visit_quiet by assumption. auto.
Qed.
Print Assumptions C100_reg_partial.

(* one that is no longer to be watched is not, if no name is in the table twice *)
Lemma polled_distinct : forall rv T, distinct T -> distinct (polled rv T).
Proof. intros rv T H i j n Hi Hj. rewrite !polled_nm. apply H; assumption. Qed.
Theorem C100_end_partial : forall T r n, distinct T -> told (msg r) "end" n -> ~ known (fst (pass T r)) n.
Proof.
  intros T r n D (m & Em & Ep) (i & Hi & K). rewrite pass_slot in K by exact Hi. rewrite Em in K. apply visit_name in K.
  unfold update in K. rewrite Ep in K. change ("end" =? "reg")%string with false in K. change ("end" =? "end")%string with true in K. cbn iota in K.
  destruct (find_ls (polled (rev r) T) n) as [j|] eqn:E.
  - apply find_seq in E as [Hj F]. rewrite polled_nm in F. destruct (nm (T j)) as [k|] eqn:Ej; [|discriminate]. apply String.eqb_eq in F. subst k.
    cbn [fst] in K. destruct (Nat.eq_dec i j) as [-> | Hn]; [rewrite put_same in K; discriminate|].
    rewrite put_other, polled_nm in K by exact Hn. apply Hn. eapply D; eassumption.
  - cbn [fst] in K. pose proof (find_none_seq _ i E Hi) as X. cbn beta in X. rewrite K, String.eqb_refl in X. discriminate.
Qed.
Print Assumptions C100_end_partial.

Theorem C100_clear : forall T r x n, told (msg r) "clear" x -> ~ known (fst (pass T r)) n.
Proof.
  intros T r x n (m & Em & Ep) (i & Hi & K). rewrite pass_slot in K by exact Hi. rewrite Em in K. apply visit_name in K.
  unfold update in K. rewrite Ep in K. change ("clear" =? "reg")%string with false in K. change ("clear" =? "end")%string with false in K. change ("clear" =? "clear")%string with true in K. cbn iota in K. cbn [fst] in K.
  unfold clear_all in K. assert (B : i <? MAX_LS = true) by (apply Nat.ltb_lt; exact Hi). rewrite B in K. destruct (nm (polled (rev r) T i)) eqn:E; [discriminate|congruence].
Qed.
Print Assumptions C100_clear.

(* nothing is watched that was not watched before or asked for *)
Theorem C100_only : forall T r n, known (fst (pass T r)) n -> known T n \/ told (msg r) "reg" n.
Proof.
  intros T r n (i & Hi & K). rewrite pass_slot in K by exact Hi. apply visit_name in K. destruct (msg r) as [m|] eqn:Em; [|left; exists i; rewrite <- (polled_nm (rev r)); auto].
  assert (P : nm (polled (rev r) T i) = Some n -> known T n \/ told (Some m) "reg" n) by (rewrite polled_nm; intros; left; exists i; auto).
  unfold update in K. destruct (parse m) as [[cmd k]|] eqn:Ep; [|apply P; exact K].
  destruct (String.eqb_spec cmd "reg") as [-> | _].
  - assert (R : forall T0 j, (j <> i \/ j = i) -> nm (fst (register T0 j k (dup_ok r) (regr r)) i) = Some n -> (j <> i -> nm (T0 i) = Some n -> known T n \/ told (Some m) "reg" n) -> known T n \/ told (Some m) "reg" n).
    { intros T0 j [Hn | ->] H1 H2; [rewrite register_other in H1 by auto; auto|]. unfold register in H1.
      destruct (dup_ok r); cbn [negb] in H1; [destruct (regr r)|]; cbn [fst] in H1; rewrite put_same in H1; try discriminate.
      cbn [nm] in H1. injection H1 as <-. right. exists m. auto. }
    destruct (find_ls _ k) as [j|] eqn:E.
    + pose proof (R (put (polled (rev r) T) j (unreg (polled (rev r) T j))) j) as R'. destruct (register _ j _ _ _) as [T' a]. cbn [fst] in *.
      apply R'; [destruct (Nat.eq_dec j i); auto|exact K|]. intros Hn H. rewrite put_other in H by auto. apply P. exact H.
    + destruct (find_free _) as [j|]; [|apply P; exact K]. apply (R (polled (rev r) T) j); [destruct (Nat.eq_dec j i); auto|exact K|]. intros _. exact P.
  - destruct (cmd =? "end")%string.
    + destruct (find_ls _ k) as [j|]; [|apply P; exact K]. cbn [fst] in K. destruct (Nat.eq_dec i j) as [-> | Hn]; [rewrite put_same in K; discriminate|].
      rewrite put_other in K by exact Hn. apply P. exact K.
    + destruct (cmd =? "clear")%string; [|apply P; exact K]. cbn [fst] in K. unfold clear_all in K. destruct (nm (polled (rev r) T i)) eqn:E; [|congruence].
      destruct (i <? MAX_LS); [discriminate|]. apply P. congruence.
Qed.
Print Assumptions C100_only.

(* a slot of another name for which nothing came in stays as it is *)
Theorem C100_others : forall T r i k, i < 64 -> nm (T i) = Some k -> rev r i = (false, false) ->
  (forall m cmd n, msg r = Some m -> parse m = Some (cmd, n) -> n <> k /\ cmd <> "clear") ->
  nm (fst (pass T r) i) = Some k /\ fd (fst (pass T r) i) = fd (T i) /\ pfd (fst (pass T r) i) = pfd (T i).
Proof.
  intros T r i k Hi K Hr Hm. rewrite pass_slot by exact Hi.
  assert (E : fst (match msg r with Some m => update (polled (rev r) T) m (dup_ok r) (regr r) | None => (polled (rev r) T, []) end) i = polled (rev r) T i).
  { destruct (msg r) as [m|]; [|reflexivity]. unfold update. destruct (parse m) as [[cmd n]|] eqn:Ep; [|reflexivity]. destruct (Hm m cmd n eq_refl Ep) as [Hn Hc].
    assert (F : forall j, find_ls (polled (rev r) T) n = Some j -> i <> j).
    { intros j F -> . apply find_seq in F as [_ F]. rewrite polled_nm, K in F. apply String.eqb_eq in F. contradiction. }
    destruct (cmd =? "reg")%string.
    - destruct (find_ls _ n) as [j|] eqn:El.
      + pose proof (register_other (put (polled (rev r) T) j (unreg (polled (rev r) T j))) j i n (dup_ok r) (regr r) (F j eq_refl)) as O. destruct (register _ j _ _ _). cbn [fst] in *.
        rewrite O. apply put_other. apply F. reflexivity.
      + destruct (find_free _) as [j|] eqn:Ef; [|reflexivity]. apply register_other. intros ->. apply find_seq in Ef as [_ Ef]. rewrite polled_nm, K in Ef. discriminate.
    - destruct (cmd =? "end")%string.
      + destruct (find_ls _ n) as [j|]; [|reflexivity]. cbn [fst]. apply put_other. apply F. reflexivity.
      + destruct (String.eqb_spec cmd "clear"); [contradiction|reflexivity]. }
  rewrite E. rewrite visit_quiet.
  - rewrite polled_nm. unfold polled. destruct (pfd (T i)) eqn:P; cbn [fd pfd]; auto.
  - unfold polled. rewrite Hr. destruct (pfd (T i)); reflexivity.
  - unfold polled. rewrite Hr. destruct (pfd (T i)); discriminate.
Qed.
Print Assumptions C100_others.

(* a connection that broke is not kept *)
Theorem C100_lost : forall T r i, i < 64 -> pfd (T i) <> None -> snd (rev r i) = true -> nm (fst (pass T r) i) = None /\ pfd (fst (pass T r) i) = None.
Proof.
  intros T r i Hi P H. rewrite pass_slot by exact Hi.
  assert (E : phup (fst (match msg r with Some m => update (polled (rev r) T) m (dup_ok r) (regr r) | None => (polled (rev r) T, []) end) i) = true).
  { assert (B : phup (polled (rev r) T i) = true) by (unfold polled; destruct (pfd (T i)); [exact H|congruence]).
    assert (G : forall T0 j n, phup (T0 i) = true -> phup (fst (register T0 j n (dup_ok r) (regr r)) i) = true).
    { intros T0 j n B0. destruct (Nat.eq_dec i j) as [-> | Hn]; [|rewrite register_other by exact Hn; exact B0].
      unfold register. destruct (dup_ok r); cbn [negb]; [destruct (regr r)|]; cbn [fst]; rewrite put_same; exact B0. }
    assert (U : forall j, phup (put (polled (rev r) T) j (unreg (polled (rev r) T j)) i) = true).
    { intros j. unfold put. destruct (Nat.eqb_spec i j) as [-> | _]; exact B. }
    destruct (msg r) as [m|]; [|exact B]. unfold update. destruct (parse m) as [[cmd n]|]; [|exact B].
    destruct (cmd =? "reg")%string.
    - destruct (find_ls _ n) as [j|].
      + pose proof (G (put (polled (rev r) T) j (unreg (polled (rev r) T j))) j n (U j)) as G'. destruct (register _ j _ _ _). exact G'.
      + destruct (find_free _) as [j|]; [apply G|]; exact B.
    - destruct (cmd =? "end")%string; [destruct (find_ls _ n); [apply U|exact B]|].
      destruct (cmd =? "clear")%string; [|exact B]. cbn [fst]. unfold clear_all. destruct (nm (polled (rev r) T i)); [destruct (i <? MAX_LS)|]; exact B. }
  generalize dependent (fst (match msg r with Some m => update (polled (rev r) T) m (dup_ok r) (regr r) | None => (polled (rev r) T, []) end) i).
  intros s E. unfold visit. destruct (pin s); [destruct (gevs r i)|]; cbn [unreg phup]; rewrite E; split; reflexivity.
Qed.
Print Assumptions C100_lost.

(* no name is entered twice; a command line without repetitions is a table without *)
Theorem C100_distinct : forall T r, distinct T -> distinct (fst (pass T r)).
Proof.
  intros T r D. assert (D1 : distinct (polled (rev r) T)) by (apply polled_distinct; exact D). set (T1 := polled (rev r) T) in *.
  assert (G : distinct (fst (match msg r with Some m => update T1 m (dup_ok r) (regr r) | None => (T1, []) end))).
  { destruct (msg r) as [m|]; [|exact D1]. unfold update. destruct (parse m) as [[cmd n]|]; [|exact D1].
    assert (R : forall T0 i, distinct T0 -> (forall j, j < 64 -> j <> i -> nm (T0 j) <> Some n) -> distinct (fst (register T0 i n (dup_ok r) (regr r)))).
    { intros T0 i D0 N a b k Ha Hb A B. destruct (Nat.eq_dec a i) as [-> | Na]; destruct (Nat.eq_dec b i) as [-> | Nb]; auto.
      - rewrite (register_other T0 i b) in B by exact Nb. exfalso. unfold register in A. destruct (dup_ok r); cbn [negb] in A; [destruct (regr r)|]; cbn [fst] in A; rewrite put_same in A; try discriminate.
        cbn [nm] in A. injection A as <-. exact (N b Hb Nb B).
      - rewrite (register_other T0 i a) in A by exact Na. exfalso. unfold register in B. destruct (dup_ok r); cbn [negb] in B; [destruct (regr r)|]; cbn [fst] in B; rewrite put_same in B; try discriminate.
        cbn [nm] in B. injection B as <-. exact (N a Ha Na A).
      - rewrite register_other in A by exact Na. rewrite register_other in B by exact Nb. eapply D0; eassumption. }
    assert (U : forall i, distinct (put T1 i (unreg (T1 i)))).
    { intros i a b k Ha Hb A B. unfold put in A, B. destruct (a =? i); [discriminate|]. destruct (b =? i); [discriminate|]. eapply D1; eassumption. }
    destruct (cmd =? "reg")%string.
    - destruct (find_ls T1 n) as [i|] eqn:E.
      + apply find_seq in E as [Hi F]. destruct (nm (T1 i)) as [k|] eqn:En; [|discriminate]. apply String.eqb_eq in F. subst k.
        pose proof (R (put T1 i (unreg (T1 i))) i (U i)) as R'. destruct (register _ i _ _ _). cbn [fst] in *. apply R'.
        intros j Hj Hn X. rewrite put_other in X by exact Hn. apply Hn. eapply D1; eassumption.
      + destruct (find_free T1) as [i|]; [|exact D1]. apply R; [exact D1|]. intros j Hj _ X. pose proof (find_none_seq _ j E Hj) as Y. cbn beta in Y. rewrite X, String.eqb_refl in Y. discriminate.
    - destruct (cmd =? "end")%string; [destruct (find_ls T1 n); [apply U|exact D1]|].
      destruct (cmd =? "clear")%string; [|exact D1]. cbn [fst]. intros a b k Ha Hb A B. unfold clear_all in A, B.
      assert (Ba : a <? MAX_LS = true) by (apply Nat.ltb_lt; exact Ha). rewrite Ba in A. destruct (nm (T1 a)) eqn:E; [discriminate|congruence]. }
  intros i j n Hi Hj A B. rewrite pass_slot in A by exact Hi. rewrite pass_slot in B by exact Hj. fold T1 in A, B. apply visit_name in A. apply visit_name in B. eapply G; eassumption.
Qed.
Print Assumptions C100_distinct.

(* ---- what is not so ---- *)
Definition quiet : nat -> bool * bool := fun _ => (false, false).
Definition T0 : table := fst (start [("LS", true, Some 5%N)]).
Definition hup0 : nat -> bool * bool := fun i => (false, i =? 0).

(* a message arrives together with the end of the old connection (sanlock was restarted): the
   new registration is made and thrown away in the same pass *)
Theorem C100_reg_refuted : exists T r, whole_table T /\ told (msg r) "reg" "LS" /\ dup_ok r = true /\ regr r = Some 6%N /\ known T "LS" /\
  snd (pass T r) = [AEnd (Some 5%N) (Some "LS"); AReg "LS" (Some 6%N); AEnd (Some 6%N) (Some "LS")] /\ ~ known (fst (pass T r)) "LS".
Proof.
  exists T0, (mkRound hup0 (Some (message "reg" "LS")) true (Some 6%N) (fun _ => GNone)).
  split; [apply start_whole|]. split; [eexists; split; reflexivity|]. split; [reflexivity|]. split; [reflexivity|].
  split; [exists 0; split; [apply Nat.lt_0_succ|reflexivity]|]. split; [vm_compute; reflexivity|].
  intros (i & Hi & K). do 64 (destruct i as [|i]; [vm_compute in K; discriminate|]). lia.
Qed.
Print Assumptions C100_reg_refuted.

(* a name given twice at the start is still watched after "end" *)
Theorem C100_end_refuted : exists T r, T = fst (start [("LS", true, Some 5%N); ("LS", true, Some 6%N)]) /\ told (msg r) "end" "LS" /\ watched (fst (pass T r)) "LS" 6.
Proof.
  eexists. exists (mkRound quiet (Some (message "end" "LS")) true None (fun _ => GNone)). split; [reflexivity|]. split; [eexists; split; reflexivity|].
  exists 1. split; [apply Nat.leb_le; reflexivity|]. split; vm_compute; reflexivity.
Qed.
Print Assumptions C100_end_refuted.

(* with 64 lockspaces a message is dropped; sanlk-reset has reported success *)
Definition letters := map (fun i => (String (ascii_of_nat (33 + i)) EmptyString, true, Some (N.of_nat i))) (seq 0 64).
Theorem C100_full_refuted : exists T r, T = fst (start letters) /\ told (msg r) "reg" "LS" /\ dup_ok r = true /\ regr r = Some 99%N /\ snd (pass T r) = [].
Proof.
  eexists. exists (mkRound quiet (Some (message "reg" "LS")) true (Some 99%N) (fun _ => GNone)). split; [reflexivity|]. split; [eexists; split; reflexivity|].
  split; [reflexivity|]. split; [reflexivity|]. vm_compute. reflexivity.
Qed.
Print Assumptions C100_full_refuted.

(* an error while reading events and the end of the connection in one pass end it twice, the
   second time without a name and a connection; ls_count is -1 and no lockspace is watched *)
Theorem C100_count_refuted : exists r, snd (pass T0 r) = [AEnd (Some 5%N) (Some "LS"); AEnd None None] /\
  ls_count (snd (start [("LS", true, Some 5%N)]) ++ snd (pass T0 r)) = (-1)%Z.
Proof. exists (mkRound (fun i => (i =? 0, i =? 0)) None true None (fun _ => GErr)). split; vm_compute; reflexivity. Qed.
Print Assumptions C100_count_refuted.

(* so do "end" and the end of the connection *)
Theorem C100_count_end_refuted : exists r, told (msg r) "end" "LS" /\ snd (pass T0 r) = [AEnd (Some 5%N) (Some "LS"); AEnd None None].
Proof. exists (mkRound hup0 (Some (message "end" "LS")) true None (fun _ => GNone)). split; [eexists; split; reflexivity|]. vm_compute. reflexivity. Qed.
Print Assumptions C100_count_end_refuted.

(* a name with a blank reaches another lockspace *)
Theorem C100_message_refuted : exists n m, n <> m /\ parse (message "reg" n) = Some ("reg", m).
Proof. exists "my ls", "my". split; [discriminate|]. vm_compute. reflexivity. Qed.
Print Assumptions C100_message_refuted.

Example C100_nonvacuous :
  let r1 := mkRound quiet (Some (message "reg" "LS2")) true (Some 6%N) (fun _ => GNone) in
  let r2 := mkRound (fun i => (i =? 1, false)) (Some (message "end" "LS")) true None (fun _ => GDone) in
  let T1 := fst (pass T0 r1) in let T2 := fst (pass T1 r2) in
  nm (T1 0) = Some "LS" /\ nm (T1 1) = Some "LS2" /\ pfd (T1 1) = Some 6%N /\ nm (T2 0) = None /\ nm (T2 1) = Some "LS2" /\ fd (T2 1) = Some 6%N /\ pfd (T2 1) = None /\
  snd (passes T0 [r1; r2]) = [AReg "LS2" (Some 6%N); AEnd (Some 5%N) (Some "LS")] /\ live T2 (Some 6%N) = 1 /\ live T2 (Some 5%N) = 0 /\ live T2 None = 1.
Proof. vm_compute. auto 12. Qed.
