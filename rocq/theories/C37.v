(* C37: importing an exported path gives back the path. *)
From Coq Require Import List NArith ZArith Lia Bool Arith ZifyBool ZifyN ZifyNat.
From Verif Require Import Bytes Strings StringsProof StringsRound.
Import ListNotations.
Open Scope N_scope.

(* ---------------- specification ---------------- *)
(* export into the 1025 byte buffers the library uses, import into the 1024 bytes
   of a path: the bytes stored are the path and its NUL *)
Definition C37_back (path : bytes) : Prop :=
  path_import_w 1024 (path_export 1025 path) 0 = (path ++ [0], true).
Definition C37_statement : Prop := forall path,
  ~ In 0 path -> (length path <= 1023)%nat -> C37_back path.

(* characters of the exported form *)
Definition C37_size (path : bytes) : nat :=
  (length path + length (filter (fun c => ((c =? 32) || (c =? 58))%N) path))%nat.

(* ---------------- theorems ---------------- *)
Lemma import_no_bs : forall dl s j c, In c (fst (path_import_w dl s j)) -> c <> BS.
Proof.
  intros dl s. induction s as [|d r IH]; intros j c; cbn [path_import_w].
  - destruct (Nat.leb dl j); cbn [fst In]; [tauto|]. intros [<-|[]]. discriminate.
  - destruct (Nat.leb dl j); [cbn [fst In]; tauto|]. destruct (d =? BS) eqn:E. { apply IH. }
    specialize (IH (S j) c). destruct (path_import_w dl r (S j)) as [w t]. cbn [fst In] in *.
    intros [<-|I]; [apply N.eqb_neq; exact E|exact (IH I)].
Qed.

Theorem C37_round_trip_partial : forall path, ~ In 0 path -> ~ In 92 path ->
  (length path <= 1023)%nat -> (C37_size path <= 1024)%nat -> C37_back path.
Proof.
  intros path N0 NB L S. assert (Cl : clean path).
  { intros c I. unfold BS. split; intros ->; tauto. }
  unfold C37_back. rewrite path_export_esc; [|lia|exact Cl|].
  2:{ rewrite esc_length. unfold C37_size in S. unfold SP, CO. lia. }
  apply import_esc; [exact Cl|lia].
Qed.

(* Among paths whose exported form fits, exactly those without a backslash come
   back. *)
Theorem C37_exact : forall path, ~ In 0 path -> (length path <= 1023)%nat -> (C37_size path <= 1024)%nat ->
  (C37_back path <-> ~ In 92 path).
Proof.
  intros path N0 L S. split.
  - intros H I. unfold C37_back in H. apply (import_no_bs 1024 (path_export 1025 path) 0 92); [|reflexivity].
    rewrite H. cbn [fst]. apply in_or_app. left. exact I.
  - intros NB. apply C37_round_trip_partial; assumption.
Qed.

(* ---------------- the full statement fails ---------------- *)
Theorem C37_refuted : ~ C37_statement.
Proof.
  intros H. specialize (H [47; 92; 97]). unfold C37_back in H.
  assert (E : path_import_w 1024 (path_export 1025 [47; 92; 97]) 0 = ([47; 97; 0], true)) by (vm_compute; reflexivity).
  rewrite E in H. discriminate H; cbn; [intuition lia|lia].
Qed.
(* a path of 600 colons is cut to 512 *)
Theorem C37_long_path_cut : path_import_w 1024 (path_export 1025 (repeat 58 600)) 0 = (repeat 58 512 ++ [0], true).
Proof. vm_compute. reflexivity. Qed.

(* ---------------- hypotheses can be met ---------------- *)
(* "/dev/a b:c", whose exported form is longer *)
Definition path_example : bytes := [47; 100; 101; 118; 47; 97; 32; 98; 58; 99].
Example C37_nonvacuous : ~ In 0 path_example /\ ~ In 92 path_example /\ (length path_example <= 1023)%nat /\
  (C37_size path_example <= 1024)%nat /\ path_export 1025 path_example <> path_example.
Proof.
  repeat split; try (vm_compute; intuition lia). vm_compute. discriminate.
Qed.

Print Assumptions C37_round_trip_partial.
Print Assumptions C37_exact.
Print Assumptions C37_refuted.
Print Assumptions C37_long_path_cut.
