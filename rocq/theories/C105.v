(* C105: a host recognises its own host lease by its name, and no other host's. *)
From Coq Require Import List String Ascii Bool Arith Lia.
From Verif Require Import HostName.
Import ListNotations.
Open Scope string_scope.
Open Scope list_scope.
Open Scope nat_scope.

Lemma len_as : forall a b, String.length (a ++ b)%string = String.length a + String.length b.
Proof. induction a; intros b; cbn; [reflexivity|]. rewrite IHa. reflexivity. Qed.
Lemma sub_all : forall s n, String.length s <= n -> substring 0 n s = s.
Proof. induction s as [|c s IH]; intros [|n] H; cbn in *; try reflexivity; try lia. rewrite IH by lia. reflexivity. Qed.
Lemma sub_len : forall s n, String.length (substring 0 n s) = Nat.min n (String.length s).
Proof. induction s as [|c s IH]; intros [|n]; cbn; try reflexivity. rewrite IH. reflexivity. Qed.
Lemma sub_sub : forall s n m, n <= m -> substring 0 n (substring 0 m s) = substring 0 n s.
Proof. induction s as [|c s IH]; intros [|n] [|m] H; cbn; try reflexivity; try lia. rewrite IH by lia. reflexivity. Qed.
Lemma sub_app : forall a b n, String.length a <= n -> substring 0 n (a ++ b)%string = (a ++ substring 0 (n - String.length a) b)%string.
Proof.
  induction a as [|c a IH]; intros b n H; [cbn; rewrite Nat.sub_0_r; reflexivity|]. destruct n as [|n]; [cbn in H; lia|]. cbn in H |- *. rewrite IH by lia. reflexivity.
Qed.
Lemma sub_pre : forall a b n, n <= String.length a -> substring 0 n (a ++ b)%string = substring 0 n a.
Proof. induction a as [|c a IH]; intros b [|n] H; cbn in *; try reflexivity; try lia; [destruct b; reflexivity|]. rewrite IH by lia. reflexivity. Qed.
Lemma app_nil : forall a, (a ++ "")%string = a.
Proof. induction a; cbn; [reflexivity|]. rewrite IHa. reflexivity. Qed.

(* a name has at most 48 characters *)
Theorem C105_length : forall arg uuid node, String.length (host_name arg uuid node) <= 48.
Proof.
  intros arg uuid node. unfold host_name, given_name, made_name. destruct (_ =? _)%string; [|rewrite sub_len; lia]. destruct (Nat.ltb_spec (String.length (uuid ++ ".")%string) 48).
  - rewrite len_as, sub_len. lia.
  - rewrite sub_len. lia.
Qed.
Print Assumptions C105_length.

(* a name that was given is used, as far as 48 characters; else one that begins with the uuid *)
Theorem C105_given : forall arg uuid node, arg <> "" -> String.length arg <= 48 -> host_name arg uuid node = arg.
Proof. intros arg uuid node N L. unfold host_name, given_name. rewrite sub_all by exact L. apply String.eqb_neq in N. rewrite N. reflexivity. Qed.
Print Assumptions C105_given.
Lemma made : forall uuid node, String.length uuid = 36 -> host_name "" uuid node = (uuid ++ "." ++ substring 0 11 node)%string.
Proof.
  intros uuid node L. unfold host_name, given_name, made_name. change ((substring 0 48 "" =? "")%string) with true. cbn iota. rewrite len_as, L. cbn [String.length Nat.add Nat.ltb Nat.leb].
  change (48 - 37) with 11. assert (A : forall a b c, ((a ++ b) ++ c)%string = (a ++ b ++ c)%string) by (induction a; intros; cbn; [reflexivity|]; rewrite IHa; reflexivity). rewrite A. reflexivity.
Qed.
Theorem C105_made : forall uuid node, String.length uuid = 36 -> exists t, host_name "" uuid node = (uuid ++ String "." t)%string.
Proof. intros uuid node L. rewrite made by exact L. eexists. reflexivity. Qed.
Print Assumptions C105_made.

(* the lease of a host with another uuid is not taken for one's own, and an acquire waits *)
Theorem C105_other : forall u v n m, String.length u = 36 -> String.length v = 36 -> u <> v -> no_wait false (recorded (host_name "" u n)) (host_name "" v m) = false.
Proof.
  intros u v n m U V N. unfold no_wait, is_own, recorded. cbn [orb]. apply String.eqb_neq. intros E. apply N. rewrite !made in E by assumption.
  apply (f_equal (substring 0 36)) in E. rewrite !sub_sub in E by lia. rewrite !sub_pre in E by lia. rewrite !sub_all in E by lia. exact E.
Qed.
Print Assumptions C105_other.
(* names of at most 47 characters: one's own and no other *)
Theorem C105_own_partial : forall a b, String.length a <= 47 -> String.length b <= 47 -> no_wait false (recorded a) b = true <-> a = b.
Proof. intros a b A B. unfold no_wait, is_own, recorded. cbn [orb]. rewrite (sub_all a 47) by lia. rewrite !sub_all by lia. apply String.eqb_eq. Qed.
Print Assumptions C105_own_partial.
(* whatever the names: a free lease is written without waiting *)
Theorem C105_free : forall rec name, no_wait true rec name = true.
Proof. reflexivity. Qed.
Print Assumptions C105_free.

(* ---- what is not so ---- *)
(* any name of 48 characters does not recognise its own record: 47 were written *)
Lemma own48 : forall a, String.length a = 48 -> is_own (recorded a) a = false.
Proof.
  intros a A. unfold is_own, recorded. apply String.eqb_neq. intros E. apply (f_equal String.length) in E. rewrite !sub_len in E. rewrite A in E. cbn in E. discriminate.
Qed.
(* so a host whose node name has 11 or more characters never does; one with a shorter name does *)
Theorem C105_own_refuted : forall uuid node, String.length uuid = 36 -> (no_wait false (recorded (host_name "" uuid node)) (host_name "" uuid node) = true <-> String.length node <= 10).
Proof.
  intros uuid node L. assert (E : String.length (host_name "" uuid node) = 37 + Nat.min 11 (String.length node)) by (rewrite made, !len_as, sub_len, L by exact L; cbn; lia).
  set (h := host_name "" uuid node) in *. split.
  - intros H. destruct (Nat.le_gt_cases (String.length node) 10) as [X | X]; [exact X|]. exfalso. cbn [no_wait orb] in H. unfold no_wait in H. cbn [orb] in H. rewrite own48 in H by lia. discriminate.
  - intros H. apply C105_own_partial; try lia; reflexivity.
Qed.
Print Assumptions C105_own_refuted.
(* a given name of 47 characters takes the record of another host, whose name is one longer, for its own *)
Fixpoint xs (n : nat) : string := match n with O => "" | S n => String "x" (xs n) end.
Theorem C105_other_refuted : exists a b, a <> b /\ String.length a <= 48 /\ String.length b <= 48 /\ forall u n v m, no_wait false (recorded (host_name a u n)) (host_name b v m) = true.
Proof. exists (xs 48), (xs 47). split; [intros H; vm_compute in H; discriminate|]. split; [vm_compute; lia|]. split; [vm_compute; lia|]. intros. vm_compute. reflexivity. Qed.
Print Assumptions C105_other_refuted.
(* given names that differ after 48 characters are one name *)
Theorem C105_given_refuted : exists a b, a <> b /\ forall u n v m, host_name a u n = host_name b v m.
Proof. exists (xs 48 ++ "a")%string, (xs 48 ++ "b")%string. split; [intros H; vm_compute in H; discriminate|]. intros. vm_compute. reflexivity. Qed.
Print Assumptions C105_given_refuted.

Example C105_nonvacuous :
  let u := "00000000-1111-2222-3333-444444444444" in let v := "00000000-1111-2222-3333-444444444445" in
  String.length u = 36 /\ host_name "" u "node1" = (u ++ ".node1")%string /\
  no_wait false (recorded (host_name "" u "node1")) (host_name "" u "node1") = true /\
  no_wait false (recorded (host_name "" u "node1.example.com")) (host_name "" u "node1.example.com") = false /\
  no_wait false (recorded (host_name "" u "n")) (host_name "" v "n") = false /\ host_name "hostA" u "n" = "hostA".
Proof. vm_compute. intuition. Qed.
