(* C90: killpath from Python: the program that is run gets the arguments of the list *)
From Coq Require Import List NArith ZArith Lia Bool Arith ZifyBool ZifyN ZifyNat.
From Verif Require Import Bytes Strings KillArgs PyArgs PyKill.
From Verif Require C60.
Import ListNotations.
Open Scope N_scope.

(* ---- specification ---- *)
(* printable ASCII and spaces *)
Definition printable (c : N) : Prop := 32 <= c <= 126.
Definition simple_arg (a : bytes) : Prop := a <> [] /\ Forall printable a.
(* the length of the arguments in one string: spaces and backslashes count twice, one for each gap *)
Definition cost1 (a : bytes) : nat := length a + length (filter (fun c => (c =? 32) || (c =? 92)) a).
Fixpoint cost (l : list bytes) : nat :=
  match l with [] => 0 | [a] => cost1 a | a :: r => (cost1 a + 1 + cost r)%nat end.
Definition no_nul (b : bytes) : Prop := ~ In 0 b.
(* the full statement: what was accepted is what is run *)
Definition C90_statement : Prop := forall path l fd p a pid,
  Forall no_nul l -> py_killpath (OBytes path) (map OBytes l) fd = KOk (fd, p, a) ->
  kill_argv p a false pid = Some (path :: l).

(* ---- proofs ---- *)
Lemma esc_len_cost p : esc_len p = cost1 p.
Proof.
  unfold cost1. induction p as [|c r IH]; [reflexivity|]. cbn [esc_len filter length]. destruct (_ || _); cbn [length]; lia.
Qed.

Fixpoint esc2 (a : bytes) : bytes :=
  match a with [] => [] | c :: r => if (c =? 32) || (c =? 92) then 92 :: c :: esc2 r else c :: esc2 r end.
Lemma esc2_len a : length (esc2 a) = cost1 a.
Proof. rewrite <- esc_len_cost. induction a as [|c r IH]; [reflexivity|]. cbn [esc2 esc_len]. destruct (_ || _); cbn [length]; lia. Qed.

Lemma store_ok acc c : (length acc < 128)%nat -> store acc c = KOk (acc ++ [c]).
Proof. intros H. unfold store, KLEN. replace (Nat.ltb (length acc) 128) with true by (symmetry; apply Nat.ltb_lt; exact H). reflexivity. Qed.

Lemma copy_ok : forall p acc, (length acc + cost1 p <= 128)%nat -> copy_arg p acc = KOk (acc ++ esc2 p).
Proof.
  induction p as [|c r IH]; intros acc L; [cbn; rewrite app_nil_r; reflexivity|]. rewrite <- esc_len_cost in L. cbn [esc_len] in L.
  rewrite esc_len_cost in L. cbn [copy_arg esc2]. destruct ((c =? 32) || (c =? 92)).
  - rewrite store_ok by lia. rewrite store_ok by (rewrite app_length; cbn; lia). rewrite IH by (rewrite !app_length; cbn; lia).
    rewrite <- !app_assoc. reflexivity.
  - rewrite store_ok by lia. rewrite IH by (rewrite !app_length; cbn; lia). rewrite <- app_assoc. reflexivity.
Qed.

(* the string after one more argument *)
Definition add_arg (acc a : bytes) : bytes := (match acc with [] => [] | _ => acc ++ [32] end) ++ esc2 a.

Lemma item_spec o acc : (length acc < 128)%nat ->
  killpath_item o acc =
    match conv UPath o with
    | Some (CB p) => if Nat.ltb 126 (length acc + cost1 p) then KRaise else KOk (add_arg acc p)
    | _ => KRaise
    end.
Proof.
  intros L. unfold killpath_item, KLEN. destruct (conv UPath o) as [[p| | | |]|]; try reflexivity. rewrite esc_len_cost.
  destruct (Nat.ltb_spec 128 (length acc + cost1 p + 2)) as [A|A]; destruct (Nat.ltb_spec 126 (length acc + cost1 p)) as [B|B]; try lia; auto.
  destruct acc as [|x acc].
  - cbn [length Nat.ltb Nat.leb] in *. rewrite copy_ok by (cbn [length]; lia). reflexivity.
  - replace (Nat.ltb 0 (length (x :: acc))) with true by reflexivity. rewrite store_ok by exact L.
    rewrite copy_ok by (rewrite app_length; cbn [length] in *; lia). reflexivity.
Qed.

Lemma add_arg_len acc a : (length (add_arg acc a) <= length acc + 1 + cost1 a)%nat.
Proof. unfold add_arg. rewrite app_length, esc2_len. destruct acc; [cbn; lia|]. rewrite app_length. cbn. lia. Qed.

Lemma items_safe : forall l acc, (length acc < 128)%nat ->
  match killpath_items l acc with KBad => False | KRaise => True | KOk a => (length a < 128)%nat end.
Proof.
  induction l as [|o r IH]; intros acc L; [exact L|]. cbn [killpath_items]. rewrite item_spec by exact L.
  destruct (conv UPath o) as [[p| | | |]|]; auto. destruct (Nat.ltb_spec 126 (length acc + cost1 p)); auto.
  apply IH. pose proof (add_arg_len acc p). lia.
Qed.

(* ---- theorems ---- *)
(* the arguments never leave the buffer and the string in it has an end, whatever the list is *)
Theorem C90_safe : forall path args fd, py_killpath path args fd <> KBad.
Proof.
  intros path args fd H. unfold py_killpath in H. destruct (conv UPath path) as [[p| | | |]|]; try discriminate.
  destruct (negb _); [discriminate|]. destruct (Nat.ltb _ _); [discriminate|].
  pose proof (items_safe args [] ltac:(cbn; lia)) as S. destruct (killpath_items args []) as [| |a]; try contradiction; try discriminate.
  unfold KLEN in H. apply Nat.ltb_lt in S. rewrite S in H. discriminate.
Qed.
Print Assumptions C90_safe.

Lemma add_quoted_nil a : add_arg [] a = esc2 a.
Proof. reflexivity. Qed.
Lemma esc_simple a : Forall printable a -> C60.esc a = esc2 a.
Proof.
  induction 1 as [|c r H F IH]; [reflexivity|]. cbn [C60.esc esc2]. unfold printable in H. rewrite IH.
  destruct ((c =? 32) || (c =? 92)) eqn:E; [replace (_ || _) with true by lia|replace (_ || _) with false by lia]; reflexivity.
Qed.
Lemma simple_nul a : simple_arg a -> conv UPath (OBytes a) = Some (CB a).
Proof.
  intros [_ F]. cbn [conv]. replace (has_nul a) with false; [reflexivity|]. symmetry. unfold has_nul.
  induction F as [|c r H F IH]; [reflexivity|]. cbn [existsb]. unfold printable in H. rewrite IH. lia.
Qed.
Lemma simple_cost a : simple_arg a -> (0 < cost1 a)%nat.
Proof. intros [NE _]. unfold cost1. destruct a; [contradiction|cbn [length]; lia]. Qed.

Lemma quoted_cost l : Forall simple_arg l -> length (C60.quoted l) = cost l.
Proof.
  induction l as [|a [|b l] IH]; intros F; inversion F as [|? ? H F']; subst; [reflexivity| |].
  - cbn [C60.quoted cost]. rewrite esc_simple by apply H. apply esc2_len.
  - rewrite C60.quoted_cons, app_length. cbn [length]. rewrite IH by exact F'. rewrite esc_simple by apply H. rewrite esc2_len.
    change (cost (a :: b :: l)) with (cost1 a + 1 + cost (b :: l))%nat. lia.
Qed.

Lemma cost_app l1 l2 : l1 <> [] -> l2 <> [] -> cost (l1 ++ l2) = (cost l1 + 1 + cost l2)%nat.
Proof.
  intros N1 N2. induction l1 as [|a [|b l1] IH]; [contradiction| |].
  - destruct l2 as [|b l2]; [contradiction|]. reflexivity.
  - change ((a :: b :: l1) ++ l2) with (a :: (b :: l1) ++ l2).
    change (cost (a :: (b :: l1) ++ l2)) with (cost1 a + 1 + cost ((b :: l1) ++ l2))%nat. rewrite IH by discriminate.
    change (cost (a :: b :: l1)) with (cost1 a + 1 + cost (b :: l1))%nat. lia.
Qed.
Lemma quoted_snoc l a : Forall simple_arg l -> simple_arg a -> add_arg (C60.quoted l) a = C60.quoted (l ++ [a]).
Proof.
  intros F A. induction l as [|b l IH]; [cbn; symmetry; apply esc_simple; apply A|]. inversion F as [|? ? B F']; subst.
  destruct l as [|c l].
  - cbn [C60.quoted app]. unfold add_arg. pose proof (simple_cost b B) as C. rewrite <- esc2_len in C.
    rewrite <- esc_simple in C by apply B. destruct (C60.esc b) as [|x y] eqn:E; [cbn in C; lia|]. rewrite <- (esc_simple a) by apply A.
    rewrite <- app_assoc. reflexivity.
  - change ((b :: c :: l) ++ [a]) with (b :: c :: (l ++ [a])). rewrite !C60.quoted_cons.
    change (c :: l ++ [a]) with ((c :: l) ++ [a]). rewrite <- IH by exact F'. unfold add_arg.
    destruct (C60.esc b ++ 32 :: C60.quoted (c :: l)) as [|x y] eqn:E; [destruct (C60.esc b); discriminate E|]. rewrite <- E.
    assert (Q : C60.quoted (c :: l) <> []).
    { intros Q. pose proof (quoted_cost (c :: l) F') as K. rewrite Q in K. inversion F' as [|? ? C0 _]; subst. pose proof (simple_cost c C0).
      destruct l; cbn in K; lia. }
    destruct (C60.quoted (c :: l)) as [|u v] eqn:E2; [contradiction|]. rewrite <- !app_assoc. reflexivity.
Qed.

Lemma items_simple : forall r l, Forall simple_arg l -> Forall simple_arg r -> (cost (l ++ r) <= 126)%nat ->
  killpath_items (map OBytes r) (C60.quoted l) = KOk (C60.quoted (l ++ r)).
Proof.
  induction r as [|a r IH]; intros l FL FR C; [rewrite app_nil_r; reflexivity|]. inversion FR as [|? ? A FR']; subst.
  cbn [map killpath_items]. assert (LE : (length (C60.quoted l) + cost1 a <= 126)%nat).
  { rewrite quoted_cost by exact FL. destruct l as [|b l]; [destruct r; cbn in *; lia|].
    rewrite cost_app in C by discriminate. destruct r; cbn [cost] in *; lia. }
  rewrite item_spec by lia. rewrite simple_nul by exact A.
  replace (Nat.ltb 126 _) with false by (symmetry; apply Nat.ltb_ge; exact LE).
  rewrite quoted_snoc by auto. replace (l ++ a :: r) with ((l ++ [a]) ++ r) in * by (rewrite <- app_assoc; reflexivity).
  apply IH; auto. apply Forall_app. split; auto.
Qed.

(* up to seven arguments of printable characters, 126 bytes with their escapes: they are run as they are *)
Theorem C90_args_partial : forall path l (with_pid : bool) pid,
  no_nul path -> (length path <= 126)%nat -> Forall simple_arg l -> (cost l <= 126)%nat ->
  (length l + (if with_pid then 1 else 0) <= 7)%nat -> pid <> 0 ->
  py_kill_argv (OBytes path) (map OBytes l) with_pid pid = Some (path :: l ++ (if with_pid then [print_llu pid] else [])).
Proof.
  intros path l w pid NP LP FL C LL P0. unfold py_kill_argv, py_killpath.
  assert (CP : conv UPath (OBytes path) = Some (CB path)).
  { cbn [conv]. replace (has_nul path) with false; [reflexivity|]. symmetry. unfold has_nul.
    apply not_true_is_false. intros H. apply existsb_exists in H. destruct H as (c & I & E). apply N.eqb_eq in E. subst c. contradiction. }
  rewrite CP. change (negb (sfits 32 0)) with false. unfold KLEN. cbv iota.
  replace (Nat.ltb 128 (length path + 1)) with false by (symmetry; apply Nat.ltb_ge; lia).
  pose proof (items_simple l [] ltac:(constructor) FL C) as I. cbn [app C60.quoted] in I. rewrite I. clear I.
  replace (Nat.ltb (length (C60.quoted l)) 128) with true by (symmetry; apply Nat.ltb_lt; rewrite quoted_cost by exact FL; lia).
  apply C60.C60_args; auto.
  - apply Forall_forall. intros c I E. subst c. contradiction.
  - eapply Forall_impl; [|exact FL]. intros a [NE F]. split; auto. eapply Forall_impl; [|exact F].
    intros c H. unfold C60.ch_ok, C60.white, C60.visible, printable in *. lia.
  - rewrite quoted_cost by exact FL. exact C.
Qed.
Print Assumptions C90_args_partial.

(* too much is an exception: more than 127 bytes are never accepted *)
Theorem C90_too_long : forall path l fd, Forall simple_arg l -> (128 <= cost l)%nat -> py_killpath (OBytes path) (map OBytes l) fd = KRaise.
Proof.
  intros path l fd F C. unfold py_killpath. destruct (conv UPath (OBytes path)) as [[p| | | |]|]; auto.
  destruct (negb _); auto. destruct (Nat.ltb _ _); auto.
  assert (G : forall r l0, Forall simple_arg l0 -> Forall simple_arg r -> (128 <= cost (l0 ++ r))%nat -> (cost l0 < 128)%nat ->
              killpath_items (map OBytes r) (C60.quoted l0) = KRaise).
  { induction r as [|a r IH]; intros l0 FL FR CC L0; [rewrite app_nil_r in CC; lia|]. inversion FR as [|? ? A FR']; subst.
    cbn [map killpath_items]. rewrite item_spec by (rewrite quoted_cost by exact FL; lia). rewrite simple_nul by exact A.
    rewrite quoted_cost by exact FL. destruct (Nat.ltb_spec 126 (cost l0 + cost1 a)); auto. rewrite quoted_snoc by auto.
    apply IH; auto; [apply Forall_app; auto|rewrite <- app_assoc; exact CC|].
    destruct l0 as [|x l0]; [cbn [app cost] in *; lia|]. rewrite cost_app by discriminate. change (cost [a]) with (cost1 a). lia. }
  specialize (G l [] ltac:(constructor) F C ltac:(cbn; lia)). cbn [C60.quoted] in G. rewrite G. reflexivity.
Qed.
Print Assumptions C90_too_long.

(* ---- the full statement fails ---- *)
(* an empty argument is lost *)
Theorem C90_empty_refuted : ~ C90_statement.
Proof.
  intros H. specialize (H [47; 107] [[]; [97]] 0%Z _ _ 0 ltac:(repeat constructor; intros I; cbn in I; intuition discriminate) eq_refl).
  vm_compute in H. discriminate H.
Qed.
Print Assumptions C90_empty_refuted.

Definition runs (path : bytes) (l : list bytes) (r : list bytes) : Prop :=
  exists p a, py_killpath (OBytes path) (map OBytes l) 5 = KOk (5%Z, p, a) /\ kill_argv p a false 0 = Some r.
(* a tab splits an argument; a byte of a non-ASCII character ends the list; a path of 127 bytes and the
   127th byte of the arguments are cut; the eighth argument is dropped *)
Theorem C90_other_args_refuted :
  runs [47] [[97; 9; 98]; [99]] [[47]; [97]; [98]; [99]] /\
  runs [47] [[97; 195; 164; 98]; [99]] [[47]; [97]] /\
  runs (repeat 47 127) [[97]] [repeat 47 126; [97]] /\
  runs [47] [repeat 97 124; [98; 99]] [[47]; repeat 97 124; [98]] /\
  runs [47] (repeat [97] 8) ([47] :: repeat [97] 7).
Proof.
  unfold runs. repeat split; eexists; eexists; split; vm_compute; reflexivity.
Qed.
Print Assumptions C90_other_args_refuted.

Example C90_nonvacuous :
  Forall simple_arg [[45; 97]; [98; 32; 99; 92]] /\ cost [[45; 97]; [98; 32; 99; 92]] = 9%nat /\
  py_kill_argv (OBytes [47; 107]) (map OBytes [[45; 97]; [98; 32; 99; 92]]) true 321 = Some [[47; 107]; [45; 97]; [98; 32; 99; 92]; [51; 50; 49]].
Proof.
  split; [|split; vm_compute; reflexivity].
  repeat constructor; try discriminate; unfold printable; lia.
Qed.
