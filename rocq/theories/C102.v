(* C102: fence_sanlockd starts with the path and host id that were given, can be fenced only when all that
   is needed for it is set up, and leaves nothing behind when its start fails. *)
From Coq Require Import List String Ascii NArith ZArith Bool Arith Lia DecimalString.
From Verif Require Import RegTable FenceStart.
Import ListNotations.
Open Scope string_scope.
Open Scope list_scope.
Open Scope Z_scope.

(* ---- spec ---- *)
(* the steps in order; what takes them back *)
Definition steps (waits : bool) : list call :=
  [Lock; Signals] ++ (if waits then [Wait] else []) ++ [Connect; WdReg; RefSet; SanReg; Killpath; Restrict; Align; AddLs; Config; Acquire; Live].
Definition undo (c : call) : list call := match c with Lock => [Unlink] | RefSet => [RefClear] | AddLs => [RemLs] | Acquire => [Release] | _ => [] end.
Fixpoint done (R : call -> Z) (l : list call) : list call * option call :=   (* what succeeded, what failed *)
  match l with [] => ([], None) | c :: l => if R c <? 0 then ([], Some c) else let (d, f) := done R l in (c :: d, f) end.
Definition white (c : ascii) : bool := existsb (Ascii.eqb c) [" "; "009"; "010"; "011"; "012"; "013"]%char.
Definition no_blank (s : string) : bool := forallb (fun c => negb (white c)) (list_ascii_of_string s).

(* ---- the start ---- *)
(* all steps up to the first that fails, then what succeeded is taken back in reverse *)
Ltac one R c t := destruct (Z.ltb_spec (R c) 0); [t|].
Ltac two R t := one R Lock t; one R Signals t.
Ltac rest R t := one R Connect t; one R WdReg t; one R RefSet t; one R SanReg t; one R Killpath t; one R Restrict t; one R Align t; one R AddLs t; one R Config t; one R Acquire t; one R Live t.
Ltac run R w t u := unfold start, steps; destruct w; cbn [app done forallb]; cbv beta zeta; [two R t; one R Wait t; rest R t; u | two R t; rest R t; u].
Theorem C102_start : forall R w, fst (start R w) =
  match done R (steps w) with (d, None) => d | (d, Some f) => d ++ [f] ++ flat_map undo (List.rev d) end.
Proof. intros R w. run R w ltac:(reflexivity) ltac:(reflexivity). Qed.
Print Assumptions C102_start.

Theorem C102_running : forall R w, snd (start R w) = Running <-> forall c, In c (steps w) -> 0 <= R c.
Proof.
  intros R w. assert (G : snd (start R w) = Running <-> forallb (fun c => negb (R c <? 0)) (steps w) = true).
  { run R w ltac:(split; intros X; discriminate X) ltac:(split; reflexivity). }
  rewrite G, forallb_forall. split; intros H c Hc; specialize (H c Hc); destruct (Z.ltb_spec (R c) 0); cbn in *; try lia; congruence.
Qed.
Print Assumptions C102_running.

(* a step is taken only when those before it succeeded: the lease, by which the host can be fenced, is
   acquired with the watchdog, killpath, the restriction of signals and the configuration in place *)
Theorem C102_fenceable : forall R w, In Acquire (fst (start R w)) ->
  0 <= R Lock /\ 0 <= R Signals /\ 0 <= R WdReg /\ 0 <= R RefSet /\ 0 <= R SanReg /\ 0 <= R Killpath /\ 0 <= R Restrict /\ 0 <= R AddLs /\ 0 <= R Config.
Proof.
  intros R w. run R w ltac:(first [intros _; repeat split; assumption | intros H'; exfalso; cbn in H'; intuition discriminate]) ltac:(intros _; repeat split; assumption).
Qed.
Print Assumptions C102_fenceable.

(* the exit code shows a failure, of calls whose result is kept in rv *)
Theorem C102_exit_partial : forall R w d f, done R (steps w) = (d, Some f) -> f <> Connect -> f <> SanReg -> f <> Align -> snd (start R w) = Exit (R f) /\ R f < 0.
Proof.
  intros R w d f. run R w ltac:(intros H' N1 N2 N3; injection H' as _ <-; first [contradiction | split; [reflexivity|assumption]]) ltac:(intros H'; discriminate H').
Qed.
Print Assumptions C102_exit_partial.
Theorem C102_exit_refuted : forall f, In f [Connect; SanReg; Align] ->
  exists R, snd (start R false) = Exit 0 /\ R f < 0 /\ In f (fst (start R false)) /\ existsb (fun c => match c with Acquire => true | _ => false end) (fst (start R false)) = false.
Proof.
  intros f [<- | [<- | [<- | []]]].
  - exists (fun c => match c with Connect => -1 | _ => 0 end). vm_compute. intuition.
  - exists (fun c => match c with SanReg => -1 | _ => 0 end). vm_compute. intuition.
  - exists (fun c => match c with Align => -1 | _ => 0 end). vm_compute. intuition.
Qed.
Print Assumptions C102_exit_refuted.

(* ---- the options ---- *)
Lemma white_space : forall c, white c = space c.
Proof. intros [[|] [|] [|] [|] [|] [|] [|] [|]]; reflexivity. Qed.
Lemma word_blank : forall s r, no_blank s = true -> word (s ++ String " " r)%string = (s, String " " r).
Proof. induction s as [|c s IH]; intros r H; [reflexivity|]. unfold no_blank in *. cbn -[white] in H. rewrite white_space in H. apply andb_true_iff in H as [A B]. apply negb_true_iff in A. cbn -[space]. rewrite A, IH by exact B. reflexivity. Qed.
Lemma word_last : forall s, no_blank s = true -> word s = (s, EmptyString).
Proof. induction s as [|c s IH]; intros H; [reflexivity|]. unfold no_blank in *. cbn -[white] in H. rewrite white_space in H. apply andb_true_iff in H as [A B]. apply negb_true_iff in A. cbn -[space]. rewrite A, IH by exact B. reflexivity. Qed.
Lemma skip_word : forall s r, no_blank s = true -> s <> "" -> skip (s ++ r)%string = (s ++ r)%string.
Proof. intros [|c s] r H N; [congruence|]. unfold no_blank in H. cbn -[white] in H. rewrite white_space in H. apply andb_true_iff in H as [A _]. apply negb_true_iff in A. cbn -[space]. rewrite A. reflexivity. Qed.
Lemma skip_space1 : forall s, skip (String " " s) = skip s.
Proof. reflexivity. Qed.
Lemma sub_all : forall s n, (String.length s <= n)%nat -> substring 0 n s = s.
Proof. induction s as [|c s IH]; intros [|n] H; cbn in *; auto; [lia|]. f_equal. apply IH. lia. Qed.
Lemma len_app : forall a b, String.length (a ++ b)%string = (String.length a + String.length b)%nat.
Proof. induction a; intros b; cbn; [reflexivity|]. rewrite IHa. reflexivity. Qed.
Lemma app_empty : forall a, (a ++ "")%string = a.
Proof. induction a; cbn; [reflexivity|]. rewrite IHa. reflexivity. Qed.
Definition id_ok (id : Z) : bool := no_blank (print_int id) && (atoi (print_int id) =? id) && negb (print_int id =? "")%string && Nat.leb (String.length (print_int id)) 3.
Lemma ids : forall id, 1 <= id <= 128 -> id_ok id = true.
Proof.
  intros id H. assert (A : forallb (fun n => id_ok (Z.of_nat n)) (seq 1 128) = true) by (vm_compute; reflexivity).
  rewrite forallb_forall in A. specialize (A (Z.to_nat id)). rewrite Z2Nat.id in A by lia. apply A. apply in_seq. lia.
Qed.
(* what -s was given is what -w takes, for a path without blanks *)
Theorem C102_options_partial : forall path id, no_blank path = true -> path <> "" -> (String.length path <= 4084)%nat -> 1 <= id <= 128 ->
  options false true path id = Send (line path id) /\ wait_options (Some (line path id)) = Some (path, id).
Proof.
  intros path id B N L H. pose proof (ids id H) as I. unfold id_ok in I. apply andb_true_iff in I as [I I4]. apply andb_true_iff in I as [I I3]. apply andb_true_iff in I as [I1 I2].
  apply Nat.leb_le in I4. apply negb_true_iff, String.eqb_neq in I3. apply Z.eqb_eq in I2. assert (Ne : (path =? "")%string = false) by (apply String.eqb_neq; exact N). split.
  - unfold options, MAX_HOSTS. destruct (Z.ltb_spec 128 id); [lia|]. destruct (Z.eqb_spec id 0); [lia|]. rewrite Ne. reflexivity.
  - unfold line. generalize dependent (print_int id). intros t I1 I2 I3 I4.
    rewrite sub_all.
    2:{ rewrite !len_app. change (String.length "-p ") with 3%nat. change (String.length " -i ") with 4%nat. lia. }
    assert (S : scan4 ("-p " ++ path ++ " -i " ++ t)%string = Some ("-p", path, "-i", t)).
    { unfold scan4. change ("-p " ++ path ++ " -i " ++ t)%string with ("-p" ++ String " " (path ++ " -i " ++ t))%string.
      rewrite skip_word by (try reflexivity; discriminate). rewrite word_blank by reflexivity. rewrite skip_space1.
      change (" -i " ++ t)%string with (String " " ("-i" ++ String " " t))%string. rewrite skip_word by assumption. rewrite word_blank by exact B. rewrite skip_space1.
      rewrite skip_word by (try reflexivity; discriminate). rewrite word_blank by reflexivity. rewrite skip_space1. rewrite <- (app_empty t) at 1. rewrite skip_word by assumption. rewrite app_empty, word_last by exact I1.
      destruct (String.eqb_spec t ""); [contradiction|reflexivity]. }
    unfold wait_options. rewrite S. change ("-p" =? "-p")%string with true. change ("-i" =? "-i")%string with true. cbn [negb orb]. rewrite I2. unfold MAX_HOSTS.
    rewrite sub_all by lia. destruct (Z.eqb_spec id 0); [lia|]. destruct (Z.ltb_spec 128 id); [lia|]. rewrite Ne. reflexivity.
Qed.
Print Assumptions C102_options_partial.

(* whatever comes, a path and a host id of at most 128 that is not 0 *)
Theorem C102_range : forall l path id, wait_options l = Some (path, id) -> path <> "" /\ id <> 0 /\ id <= 128.
Proof.
  intros l path id H. unfold wait_options in H. destruct l as [l|]; [|discriminate]. destruct (scan4 l) as [[[[k1 v1] k2] v2]|]; [|discriminate].
  destruct (negb (k1 =? "-p")%string || negb (k2 =? "-i")%string); [discriminate|]. unfold MAX_HOSTS in H. destruct (Z.eqb_spec (atoi v2) 0); [discriminate|]. destruct (Z.ltb_spec 128 (atoi v2)); [discriminate|].
  cbn [orb] in H. destruct (String.eqb_spec (substring 0 4095 v1) ""); [discriminate|]. injection H as <- <-. auto.
Qed.
Print Assumptions C102_range.

(* hosts have leases of their own behind the area of the lockspace *)
Theorem C102_leases : forall a b mb, 1 <= a <= 128 -> 1 <= b <= 128 -> In mb [1; 2; 4; 8] ->
  exists x y, lease_offset a (mb * 2 ^ 20) = Some x /\ lease_offset b (mb * 2 ^ 20) = Some y /\ mb * 2 ^ 20 <= x /\ (a < b -> x + mb * 2 ^ 20 <= y).
Proof.
  intros a b mb Ha Hb M. assert (Hm : 1 <= mb <= 8) by (cbn in M; lia). exists (a * (mb * 2 ^ 20)), (b * (mb * 2 ^ 20)). unfold lease_offset.
  assert (E : forall c, 1 <= c <= 128 -> (- 2 ^ 31 <=? c * (mb * 2 ^ 20)) && (c * (mb * 2 ^ 20) <? 2 ^ 31) = true).
  { intros c Hc. apply andb_true_iff. split; [apply Z.leb_le|apply Z.ltb_lt]; nia. }
  rewrite !E by assumption. repeat split; nia.
Qed.
Print Assumptions C102_leases.

(* ---- what is not so ---- *)
Theorem C102_blank_refuted : exists path id, options false true path id = Send (line path id) /\ wait_options (Some (line path id)) = Some ("/dev/x", 5) /\ id = 3.
Proof. exists "/dev/x -i 5", 3. split; [reflexivity|]. split; [vm_compute; reflexivity|reflexivity]. Qed.
Print Assumptions C102_blank_refuted.

Fixpoint many (n : nat) : string := match n with O => "" | S n => String "a" (many n) end.
Theorem C102_cut_refuted : exists path id, no_blank path = true /\ id = 12 /\ wait_options (Some (line path id)) = Some (path, 1).
Proof. exists (many 4086), 12. split; [vm_compute; reflexivity|]. split; [reflexivity|]. vm_compute. reflexivity. Qed.
Print Assumptions C102_cut_refuted.

Theorem C102_negative_refuted : options false false "/dev/x" (-3) = Daemon false /\ wait_options (Some (line "/dev/x" (-3))) = Some ("/dev/x", -3).
Proof. split; [reflexivity|]. vm_compute. reflexivity. Qed.
Print Assumptions C102_negative_refuted.

Theorem C102_path_refuted : exists path, options false false path 1 = Daemon false /\ wait_options (Some (line path 1)) = Some (path, 1) /\ path_fits path = false.
Proof. exists (many 1024). split; [reflexivity|]. split; vm_compute; reflexivity. Qed.
Print Assumptions C102_path_refuted.

Example C102_nonvacuous :
  start (fun _ => 0) true = (steps true, Running) /\
  start (fun c => match c with Live => -5 | _ => 0 end) false = (steps false ++ [Release; RemLs; RefClear; Unlink], Exit (-5)) /\
  start (fun c => match c with RefSet => -2 | _ => 0 end) false = ([Lock; Signals; Connect; WdReg; RefSet; Unlink], Exit (-2)) /\
  line "/dev/fence" 7 = "-p /dev/fence -i 7" /\ wait_options (Some (line "/dev/fence" 7)) = Some ("/dev/fence", 7).
Proof. repeat split; vm_compute; reflexivity. Qed.
