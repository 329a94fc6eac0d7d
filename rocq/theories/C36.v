(* C36: the string parsers never write outside their buffers. *)
From Coq Require Import List NArith ZArith Lia Bool Arith ZifyBool ZifyN ZifyNat.
From Verif Require Import Bytes Strings StringsProof.
Import ListNotations.
Open Scope N_scope.

(* ---------------- specification ---------------- *)
(* a destination of [size] bytes: [w] are the bytes stored at 0, 1, 2, ... *)
Definition C36_inside (size : nat) (w : bytes) : Prop := (length w <= size)%nat.
Definition C36_statement : Prop :=
  (forall s, str_to_res s <> PBad) /\
  (forall s, state_to_args s <> ABad) /\
  (forall size s, (1 <= size)%nat -> C36_inside size (path_export_w (Z.of_nat size) s 0)) /\
  (forall size s, C36_inside size (fst (path_import_w size s 0))).

(* ---------------- theorems ---------------- *)
(* Parsing any string as a resource stays inside sub[] and disks[]. *)
Theorem C36_str_to_res : forall s, str_to_res s <> PBad.
Proof. exact str_to_res_safe. Qed.

(* Exporting into three bytes or more stays inside and leaves a final NUL. *)
Theorem C36_path_export : forall size s, (3 <= size)%nat -> (Z.of_nat size < 2 ^ 63)%Z ->
  C36_inside size (path_export_w (Z.of_nat size) s 0) /\
  ((length (path_export_w (Z.of_nat size) s 0) < size)%nat \/ exists w, path_export_w (Z.of_nat size) s 0 = w ++ [0]).
Proof.
  intros size s L U. destruct (export_w_len (Z.of_nat size) ltac:(lia) s 0%Z ltac:(lia)) as [H|(w & W & H)]; unfold C36_inside.
  - split; [lia|]. left. lia.
  - split; [rewrite W, app_length; cbn [length]; lia|]. right. exists w. exact W.
Qed.

(* Importing stays inside for every size; the result is terminated when the
   function does not return 0 for a full buffer. *)
Theorem C36_path_import : forall size s,
  C36_inside size (fst (path_import_w size s 0)) /\
  (snd (path_import_w size s 0) = true -> exists w, fst (path_import_w size s 0) = w ++ [0]).
Proof.
  intros size s. pose proof (import_w_len size s 0%nat) as H. destruct (path_import_w size s 0) as [w t].
  destruct H as (L & T). unfold C36_inside. cbn [fst snd]. split; [lia|exact T].
Qed.

(* A resource state list of at most 2200 characters is parsed inside str[] and
   args[], and the array is never freed under a success code. *)
Theorem C36_state_to_args_partial : forall s, (2 * length s <= SANLK_MAX_RES_STR)%nat ->
  state_to_args s <> ABad /\ state_to_args s <> AFreed.
Proof.
  intros s L. unfold state_to_args. apply state_loop_safe with (skip := false); [exact L|discriminate|].
  rewrite count_spaces_from. cbn [length]. lia.
Qed.

(* ---------------- the full statement fails ---------------- *)
(* a state of 4402 letters runs over str[4401] *)
Definition long_state : bytes := repeat 97 (N.to_nat 4402).
Theorem C36_state_to_args_overflow : state_to_args long_state = ABad.
Proof. vm_compute. reflexivity. Qed.
(* an export buffer of one byte: dstlen - 3 wraps and there is no limit *)
Theorem C36_export_small_overflow : path_export_w 1 (repeat 97 100) 0 = repeat 97 100.
Proof. vm_compute. reflexivity. Qed.
Theorem C36_refuted : ~ C36_statement.
Proof. intros (_ & H & _). exact (H long_state C36_state_to_args_overflow). Qed.

(* ---------------- hypotheses can be met ---------------- *)
(* "a:b:/c:0 d:e:/f:0" parses to two resources *)
Definition two_state : bytes :=
  [97; 58; 98; 58; 47; 99; 58; 48; 32; 100; 58; 101; 58; 47; 102; 58; 48].
Example C36_nonvacuous :
  (2 * length two_state <= SANLK_MAX_RES_STR)%nat /\
  state_to_args two_state = AOk [mkSres [97] [98] 0 0 [mkSdisk [47; 99] 0]; mkSres [100] [101] 0 0 [mkSdisk [47; 102] 0]] /\
  (* a path of more than 1024 characters is refused, not truncated or overrun *)
  str_to_res ([97; 58; 98; 58] ++ repeat 99 1025 ++ [58; 48]) = PFail /\
  (* an export that does not fit is cut *)
  path_export_w 5 [97; 32; 98; 99; 100] 0 = [97; 92; 32; 98].
Proof. split; [apply Nat.leb_le; vm_compute; reflexivity|]. vm_compute. auto. Qed.

Print Assumptions C36_str_to_res.
Print Assumptions C36_path_export.
Print Assumptions C36_path_import.
Print Assumptions C36_state_to_args_partial.
Print Assumptions C36_state_to_args_overflow.
Print Assumptions C36_export_small_overflow.
Print Assumptions C36_refuted.
