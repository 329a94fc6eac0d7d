(* C103: fence_sanlockd learns from the files of the fence agents which host is being fenced. *)
From Coq Require Import List String Ascii NArith ZArith Bool Arith Lia.
From Verif Require Import RegTable FenceD FenceFile.
Import ListNotations.
Open Scope string_scope.
Open Scope list_scope.
Open Scope Z_scope.

(* ---- spec ---- *)
(* a decimal number: digits only *)
Fixpoint value (s : string) (a : Z) : option Z :=
  match s with
  | EmptyString => Some a
  | String c r => let k := Z.of_nat (nat_of_ascii c) in if (48 <=? k) && (k <=? 57) then value r (a * 10 + (k - 48)) else None
  end.
Definition number (s : string) (v : Z) : Prop := s <> "" /\ value s 0 = Some v.
(* an agent with this process id, fencing that host, whose process runs *)
Definition runs_agent (proc : Z -> option string) (pid : Z) : Prop := exists t, proc pid = Some ("fence_sanlock" ++ t)%string /\ t = NL.
Definition agent_of (e : entry) (pid host : Z) : Prop :=
  exists p h g v t, e = agent_file p h g v t /\ number p pid /\ number h host /\ 0 < pid < 2 ^ 31 /\ 1 <= host <= 128 /\
    (exists x, number g x) /\ (exists x, number v x) /\ (exists x, number t x) /\ (String.length g <= 20 /\ String.length v <= 20 /\ String.length t <= 20)%nat.

(* white space *)
Fixpoint blank (s : string) : Prop := match s with EmptyString => True | String c r => In (nat_of_ascii c) [9; 10; 11; 12; 13; 32]%nat /\ blank r end.
(* no process, or one of another name *)
Definition gone (proc : Z -> option string) (pid : Z) : Prop := forall c, proc pid = Some c -> forall b y, blank b -> c <> (b ++ "fence_sanlock" ++ y)%string.
(* an integer as text, and the int that becomes of it *)
Definition integer (s : string) (z : Z) : Prop := number s z \/ (exists r, s = String "+" r /\ number r z) \/ (exists r, s = String "-" r /\ number r (- z)).
Definition as_int (z i : Z) : Prop := - 2 ^ 31 <= i < 2 ^ 31 /\ (- 2 ^ 63 <= z < 2 ^ 63 -> exists k, i = z + k * 2 ^ 32).
Definition names (t : string) (pid host : Z) : Prop :=
  exists b0 n b1 b2 m r z y, t = (b0 ++ n ++ b1 ++ "host_id" ++ b2 ++ m ++ r)%string /\ blank b0 /\ blank b1 /\ blank b2 /\ integer n z /\ as_int z pid /\ integer m y /\ as_int y host.

(* ---- reading a number ---- *)
Lemma run_value : forall s a n v r, value s a = Some v -> (match r with String c _ => digit c = false | EmptyString => True end) -> run (s ++ r)%string a n = (v, (n + String.length s)%nat, r).
Proof.
  induction s as [|c s IH]; intros a n v r H R.
  - cbn in *. injection H as <-. rewrite Nat.add_0_r. destruct r as [|c r]; [reflexivity|]. cbn. rewrite R. reflexivity.
  - cbn [value] in H. cbn [append run]. unfold digit, code. destruct ((48 <=? Z.of_nat (nat_of_ascii c)) && (Z.of_nat (nat_of_ascii c) <=? 57)); [|discriminate].
    rewrite (IH _ (S n) v r H R). cbn [String.length]. replace (S n + String.length s)%nat with (n + S (String.length s))%nat by lia. reflexivity.
Qed.
Lemma first_digit : forall c r a v, value (String c r) a = Some v -> (48 <= nat_of_ascii c <= 57)%nat.
Proof. intros c r a v H. cbn [value] in H. destruct ((48 <=? Z.of_nat (nat_of_ascii c)) && (Z.of_nat (nat_of_ascii c) <=? 57)) eqn:E; [|discriminate]. apply andb_true_iff in E as [A B]. apply Z.leb_le in A. apply Z.leb_le in B. lia. Qed.
Lemma skip_digit : forall c r, (48 <= nat_of_ascii c)%nat -> skip (String c r) = String c r.
Proof. intros c r H. cbn [skip]. unfold space. destruct (Nat.eqb_spec (nat_of_ascii c) 32); [lia|]. destruct (Nat.leb_spec (nat_of_ascii c) 13); [lia|]. rewrite andb_false_r. reflexivity. Qed.
Lemma scan_number : forall s v r, number s v -> 0 <= v < 2 ^ 31 -> (match r with String c _ => digit c = false | EmptyString => True end) -> scan_d (s ++ r)%string = Some (v, r).
Proof.
  intros s v r [N V] B R. destruct s as [|c s]; [congruence|]. pose proof (first_digit _ _ _ _ V) as F. unfold scan_d. cbn [append]. rewrite skip_digit by lia.
  destruct (Nat.eqb_spec (nat_of_ascii c) 45); [lia|]. destruct (Nat.eqb_spec (nat_of_ascii c) 43); [lia|]. cbn [orb].
  change (String c (s ++ r)) with (String c s ++ r)%string. rewrite (run_value _ 0 0 v r V R). cbn [String.length Nat.add Nat.eqb].
  assert (C : cut_int v = v) by (unfold cut_int; rewrite Z.min_r, Z.max_r by lia; rewrite Z.mod_small; lia). rewrite C. reflexivity.
Qed.
Lemma scan_blank : forall s, scan_d (String " " s) = scan_d s.
Proof. reflexivity. Qed.
Lemma app_as : forall a b c, ((a ++ b) ++ c)%string = (a ++ b ++ c)%string.
Proof. induction a; intros; cbn; [reflexivity|]. rewrite IHa. reflexivity. Qed.
Lemma len_as : forall a b, String.length (a ++ b)%string = (String.length a + String.length b)%nat.
Proof. induction a; intros b; cbn; [reflexivity|]. rewrite IHa. reflexivity. Qed.
Fixpoint no_nl (s : string) : bool := match s with String c r => negb (Nat.eqb (nat_of_ascii c) 10) && no_nl r | EmptyString => true end.
Lemma no_nl_app : forall a b, no_nl (a ++ b)%string = no_nl a && no_nl b.
Proof. induction a; intros b; [reflexivity|]. cbn -[nat_of_ascii]. rewrite IHa, andb_assoc. reflexivity. Qed.
Lemma no_nl_number : forall s a v, value s a = Some v -> no_nl s = true.
Proof.
  induction s as [|c s IH]; intros a v H; [reflexivity|]. pose proof (first_digit _ _ _ _ H) as F. cbn [value] in H. destruct (_ && _); [|discriminate].
  cbn [no_nl]. rewrite (IH _ _ H). destruct (Nat.eqb_spec (nat_of_ascii c) 10); [lia|reflexivity].
Qed.
Lemma to_nl_line : forall s, no_nl s = true -> to_nl (s ++ NL)%string = s.
Proof. induction s as [|c s IH]; intros H; [reflexivity|]. cbn [no_nl] in H. apply andb_true_iff in H as [A B]. cbn [append to_nl]. destruct (Nat.eqb (nat_of_ascii c) 10); [discriminate|]. rewrite IH by exact B. reflexivity. Qed.

(* the file of an agent is read as what it says *)
Lemma file_scan : forall e pid host, agent_of e pid host -> exists name text, e = (name, Some text) /\ starts PREFIX name = true /\ scan_file text = Sc pid host.
Proof.
  intros e pid host (p & h & g & v & t & -> & Np & Nh & Bp & Bh & [xg [_ Ng]] & [xv [_ Nv]] & [xt [_ Nt]] & Lg & Lv & Lt). unfold agent_file. eexists. eexists. split; [reflexivity|]. split.
  - unfold starts. assert (S : forall a b, strip a (a ++ b) = Some b) by (induction a as [|c a IH]; intros b; [reflexivity|]; cbn; rewrite Ascii.eqb_refl; apply IH). rewrite S. reflexivity.
  - unfold scan_file. rewrite (scan_number p pid) by (try exact Np; try lia; reflexivity).
    change (skip (" host_id " ++ h ++ " gen " ++ g ++ " ver " ++ v ++ " timestamp " ++ t ++ NL)%string) with ("host_id" ++ String " " (h ++ " gen " ++ g ++ " ver " ++ v ++ " timestamp " ++ t ++ NL))%string.
    change (strip "host_id" ("host_id" ++ String " " (h ++ " gen " ++ g ++ " ver " ++ v ++ " timestamp " ++ t ++ NL))%string) with (Some (String " " (h ++ " gen " ++ g ++ " ver " ++ v ++ " timestamp " ++ t ++ NL)))%string.
    cbn iota beta. rewrite scan_blank. rewrite (scan_number h host) by (try exact Nh; try lia; reflexivity).
    set (r := ("gen " ++ g ++ " ver " ++ v ++ " timestamp " ++ t)%string).
    assert (E : skip (" gen " ++ g ++ " ver " ++ v ++ " timestamp " ++ t ++ NL)%string = (r ++ NL)%string).
    { unfold r. rewrite !app_as. reflexivity. }
    rewrite E. rewrite to_nl_line by (unfold r; rewrite !no_nl_app, (no_nl_number g 0 xg Ng), (no_nl_number v 0 xv Nv), (no_nl_number t 0 xt Nt); reflexivity).
    assert (Ne : (r =? "")%string = false) by reflexivity. rewrite Ne.
    assert (L : (String.length r < 512)%nat) by (unfold r; rewrite !len_as; change (String.length "gen ") with 4%nat; change (String.length " ver ") with 5%nat; change (String.length " timestamp ") with 11%nat; lia).
    destruct (Nat.leb_spec 512 (String.length r)); [lia|reflexivity].
Qed.

(* ---- the search ---- *)
Lemma space_in : forall c, space c = true -> In (nat_of_ascii c) [9; 10; 11; 12; 13; 32]%nat.
Proof.
  intros c H. unfold space in H. apply orb_true_iff in H as [H | H]; [apply Nat.eqb_eq in H; rewrite H; cbn; tauto|]. apply andb_true_iff in H as [A B]. apply Nat.leb_le in A. apply Nat.leb_le in B.
  cbn [In]. lia.
Qed.
Lemma skip_split : forall s, exists b, s = (b ++ skip s)%string /\ blank b.
Proof.
  induction s as [|c s (b & E & B)]; [exists ""; split; [reflexivity|exact I]|]. cbn [skip]. destruct (space c) eqn:S.
  - exists (String c b). split; [cbn; f_equal; exact E|]. cbn [blank]. split; [apply space_in; exact S|exact B].
  - exists "". split; [reflexivity|exact I].
Qed.
Lemma word_split : forall s, s = (fst (word s) ++ snd (word s))%string.
Proof. induction s as [|c s IH]; [reflexivity|]. cbn [word]. destruct (space c); [reflexivity|]. destruct (word s) as [w t]. cbn in *. f_equal. exact IH. Qed.
Lemma strip_app : forall p s r, strip p s = Some r -> s = (p ++ r)%string.
Proof. induction p as [|a p IH]; intros [|b s] r H; cbn in H; try discriminate; try (injection H as <-; reflexivity). destruct (Ascii.eqb_spec a b) as [-> | _]; [|discriminate]. cbn. f_equal. apply IH. exact H. Qed.
Lemma starts_app : forall p s, starts p s = true -> exists x, s = (p ++ x)%string.
Proof. intros p s H. unfold starts in H. destruct (strip p s) as [x|] eqn:E; [|discriminate]. exists x. apply strip_app. exact E. Qed.
Lemma is_agent_sound : forall o, is_agent o = true -> exists c b y, o = Some c /\ blank b /\ c = (b ++ "fence_sanlock" ++ y)%string.
Proof.
  intros [c|] H; [|discriminate]. unfold is_agent in H. destruct (skip_split c) as (b & E & B). pose proof (word_split (skip c)) as W. destruct (word (skip c)) as [w u]. cbn [fst snd] in W.
  apply andb_true_iff in H as [_ H]. apply starts_app in H as [y ->]. exists c, b, (y ++ u)%string. split; [reflexivity|]. split; [exact B|]. rewrite E at 1. rewrite W. rewrite app_as. reflexivity.
Qed.
Lemma gone_agent : forall proc pid, gone proc pid -> is_agent (proc pid) = false.
Proof. intros proc pid G. destruct (is_agent (proc pid)) eqn:A; [|reflexivity]. destruct (is_agent_sound _ A) as (c & b & y & E & B & C). exfalso. exact (G c E b y B C). Qed.
Lemma run_split : forall s a n v k u, run s a n = (v, k, u) -> exists d, s = (d ++ u)%string /\ value d a = Some v /\ k = (n + String.length d)%nat.
Proof.
  induction s as [|c s IH]; intros a n v k u H; cbn [run] in H.
  - injection H as <- <- <-. exists "". repeat split. cbn. lia.
  - destruct (digit c) eqn:D.
    + destruct (IH _ _ _ _ _ H) as (d & E & V & K). exists (String c d). split; [cbn; f_equal; exact E|]. split; [cbn [value]; unfold digit, code in D; rewrite D; exact V|]. cbn [String.length]. lia.
    + injection H as <- <- <-. exists "". repeat split. cbn. lia.
Qed.
Lemma cut_as_int : forall z, as_int z (cut_int z).
Proof.
  intros z. unfold as_int, cut_int. set (w := Z.max (- 2 ^ 63) (Z.min (2 ^ 63 - 1) z)). split; [pose proof (Z.mod_pos_bound (w + 2 ^ 31) (2 ^ 32)); lia|].
  intros B. assert (W : w = z) by (unfold w; lia). rewrite W. exists (- ((z + 2 ^ 31) / 2 ^ 32)). pose proof (Z.div_mod (z + 2 ^ 31) (2 ^ 32)). lia.
Qed.
Lemma scan_split : forall s v u, scan_d s = Some (v, u) -> exists b n z, s = (b ++ n ++ u)%string /\ blank b /\ integer n z /\ as_int z v.
Proof.
  intros s v u H. unfold scan_d in H. destruct (skip_split s) as (b & E & B). destruct (skip s) as [|c r]; [discriminate|].
  destruct (Nat.eqb_spec (nat_of_ascii c) 45) as [M | M].
  - cbn [orb] in H. destruct (run r 0 0) as [[x k] t] eqn:R. destruct (Nat.eqb_spec k 0) as [_ | K]; [discriminate|]. injection H as <- <-. destruct (run_split _ _ _ _ _ _ R) as (d & -> & V & ->).
    exists b, (String c d), (- x). split; [exact E|]. split; [exact B|]. split; [|apply cut_as_int]. right. right. exists d.
    assert (C : c = "-"%char) by (rewrite <- (ascii_nat_embedding c), M; reflexivity). rewrite C. split; [reflexivity|]. rewrite Z.opp_involutive. split; [intros ->; apply K; reflexivity|exact V].
  - destruct (Nat.eqb_spec (nat_of_ascii c) 43) as [P | P]; cbn [orb] in H.
    + destruct (run r 0 0) as [[x k] t] eqn:R. destruct (Nat.eqb_spec k 0) as [_ | K]; [discriminate|]. injection H as <- <-. destruct (run_split _ _ _ _ _ _ R) as (d & -> & V & ->).
      exists b, (String c d), x. split; [exact E|]. split; [exact B|]. split; [|apply cut_as_int]. right. left. exists d.
      assert (C : c = "+"%char) by (rewrite <- (ascii_nat_embedding c), P; reflexivity). rewrite C. split; [reflexivity|]. split; [intros ->; apply K; reflexivity|exact V].
    + destruct (run (String c r) 0 0) as [[x k] t] eqn:R. destruct (Nat.eqb_spec k 0) as [_ | K]; [discriminate|]. injection H as <- <-. destruct (run_split _ _ _ _ _ _ R) as (d & D & V & ->).
      exists b, d, x. rewrite <- D. split; [exact E|]. split; [exact B|]. split; [|apply cut_as_int]. left. split; [intros ->; apply K; reflexivity|exact V].
Qed.
Lemma scan_names : forall t pid host, scan_file t = Sc pid host -> names t pid host.
Proof.
  intros t pid host H. unfold scan_file in H. destruct (scan_d t) as [[p u]|] eqn:E1; [|discriminate]. destruct (scan_split _ _ _ E1) as (b0 & n & z & -> & B0 & N & Z1).
  destruct (skip_split u) as (b1 & E & B1). destruct (strip "host_id" (skip u)) as [w|] eqn:E2; [|discriminate]. apply strip_app in E2.
  destruct (scan_d w) as [[h x]|] eqn:E3; [|discriminate]. destruct (scan_split _ _ _ E3) as (b2 & m & y & -> & B2 & M & Z2).
  destruct (_ =? _)%string; [discriminate|]. destruct (Nat.leb 512 _); [discriminate|]. injection H as <- <-.
  exists b0, n, b1, b2, m, x, z, y. split; [rewrite E, E2; reflexivity|]. repeat split; try assumption; first [apply Z1 | apply Z2].
Qed.
Lemma agent_comm : forall proc pid, runs_agent proc pid -> is_agent (proc pid) = true.
Proof. intros proc pid (t & -> & ->). reflexivity. Qed.
(* files of agents that are gone, then one of an agent that runs: the host it fences *)
Theorem C103_first : forall proc old e pid host rest, (forall x, In x old -> exists p h, agent_of x p h /\ gone proc p) -> agent_of e pid host -> runs_agent proc pid ->
  check_fence_agent proc (Some (old ++ e :: rest)) = Found host.
Proof.
  intros proc old e pid host rest G A R. cbn [check_fence_agent]. induction old as [|x old IH].
  - destruct (file_scan e pid host A) as (n & t & -> & S & F). cbn [app check_agent]. rewrite S, F. cbn [negb]. destruct A as (? & ? & ? & ? & ? & _ & _ & _ & Bp & Bh & _).
    destruct (Z.eqb_spec pid 0); [lia|]. destruct (Z.eqb_spec host 0); [lia|]. cbn [orb]. rewrite (agent_comm proc pid R). reflexivity.
  - destruct (G x (or_introl eq_refl)) as (p & h & Ax & P). destruct (file_scan x p h Ax) as (n & t & -> & S & F). cbn [app check_agent]. rewrite S, F. cbn [negb].
    rewrite (gone_agent _ _ P). destruct ((p =? 0) || (h =? 0)); apply IH; intros y Hy; apply G; right; exact Hy.
Qed.
Print Assumptions C103_first.

(* no agent runs: none is found *)
Theorem C103_none : forall proc dir, (forall l, dir = Some l -> forall n t, In (n, t) l -> (exists x, n = ("fence_sanlock.pid." ++ x)%string) -> exists p h, agent_of (n, t) p h /\ gone proc p) -> check_fence_agent proc dir = Error.
Proof.
  intros proc [l|] H; [|reflexivity]. cbn [check_fence_agent]. specialize (H l eq_refl). induction l as [|[n t] l IH]; [reflexivity|]. cbn [check_agent].
  assert (IH' : check_agent proc l = Error) by (apply IH; intros; apply H; [right; assumption|assumption]). destruct (starts PREFIX n) eqn:S; [|exact IH']. cbn [negb].
  destruct (H n t (or_introl eq_refl) (starts_app _ _ S)) as (p & h & A & P). destruct (file_scan _ p h A) as (n' & t' & E & _ & F). injection E as <- ->. rewrite F, (gone_agent _ _ P).
  destruct ((p =? 0) || (h =? 0)); exact IH'.
Qed.
Print Assumptions C103_none.

(* a file that ends after the host id, as one that is being written may, counts for nothing *)
Theorem C103_cut : forall proc n p h pid host rest, number p pid -> number h host -> 0 < pid < 2 ^ 31 -> 0 < host < 2 ^ 31 ->
  check_fence_agent proc (Some ((n, Some (p ++ " host_id " ++ h)%string) :: rest)) = check_fence_agent proc (Some rest).
Proof.
  intros proc n p h pid host rest Np Nh Bp Bh. cbn [check_fence_agent check_agent]. destruct (starts PREFIX n); [|reflexivity]. cbn [negb].
  assert (S : scan_file (p ++ " host_id " ++ h)%string = ScNo).
  { unfold scan_file. rewrite (scan_number p pid) by (try exact Np; try lia; reflexivity).
    change (strip "host_id" (skip (" host_id " ++ h)%string)) with (Some (String " " h)). cbn iota beta. rewrite scan_blank.
    pose proof (scan_number h host "" Nh ltac:(lia) I) as E. assert (A : (h ++ "")%string = h) by (clear; induction h; cbn; [reflexivity|]; rewrite IHh; reflexivity). rewrite A in E. rewrite E. reflexivity. }
  rewrite S. reflexivity.
Qed.
Print Assumptions C103_cut.

(* nor does one that cannot be opened, or has another name *)
Theorem C103_skip : forall proc n t rest, t = None \/ (forall x, n <> ("fence_sanlock.pid." ++ x)%string) -> check_fence_agent proc (Some ((n, t) :: rest)) = check_fence_agent proc (Some rest).
Proof.
  intros proc n t rest H. cbn [check_fence_agent check_agent]. destruct (starts PREFIX n) eqn:S; [|reflexivity]. cbn [negb]. destruct H as [-> | H]; [reflexivity|].
  exfalso. destruct (starts_app _ _ S) as [x E]. exact (H x E).
Qed.
Print Assumptions C103_skip.

(* whatever the files are: a host that is found is named in a file of that directory together with a process
   that runs under a name that begins with fence_sanlock *)
Definition witness (proc : Z -> option string) (l : list entry) (v : Z) : Prop :=
  exists n t pid c b y, In (("fence_sanlock.pid." ++ n)%string, Some t) l /\ names t pid v /\ pid <> 0 /\ v <> 0 /\ proc pid = Some c /\ blank b /\ c = (b ++ "fence_sanlock" ++ y)%string.
Theorem C103_sound : forall proc dir v, check_fence_agent proc dir = Found v -> exists l, dir = Some l /\ witness proc l v.
Proof.
  intros proc [l|] v H; [|discriminate]. cbn [check_fence_agent] in H. exists l. split; [reflexivity|]. induction l as [|[n t] l IH]; [discriminate|]. cbn [check_agent] in H.
  assert (K : check_agent proc l = Found v -> witness proc ((n, t) :: l) v).
  { intros X. destruct (IH X) as (n0 & t0 & pid & c & b & y & I & R). exists n0, t0, pid, c, b, y. split; [right; exact I|exact R]. }
  destruct (starts PREFIX n) eqn:S; cbn [negb] in H; [|apply K; exact H]. destruct t as [t|]; [|apply K; exact H].
  destruct (scan_file t) as [| |pid h] eqn:F; [discriminate|apply K; exact H|]. destruct (Z.eqb_spec pid 0) as [_ | P]; [apply K; exact H|]. destruct (Z.eqb_spec h 0) as [_ | Hh]; [apply K; exact H|]. cbn [orb] in H.
  destruct (is_agent (proc pid)) eqn:A; [|apply K; exact H]. injection H as ->. destruct (is_agent_sound _ A) as (c & b & y & C & B & E). destruct (starts_app _ _ S) as [x ->].
  exists x, t, pid, c, b, y. split; [left; reflexivity|]. split; [apply scan_names; exact F|]. repeat split; assumption.
Qed.
Print Assumptions C103_sound.

(* ---- what is not so ---- *)
(* a file left by an agent that was killed counts if its process id was given to fence_sanlockd *)
Definition left_over : entry := agent_file "1234" "5" "1" "7" "99".
Theorem C103_stale_refuted : exists proc, proc 1234 = Some ("fence_sanlockd" ++ NL)%string /\ check_fence_agent proc (Some [left_over]) = Found 5.
Proof. exists (fun p => if p =? 1234 then Some ("fence_sanlockd" ++ NL)%string else None). split; [reflexivity|]. vm_compute. reflexivity. Qed.
Print Assumptions C103_stale_refuted.

(* two agents run: one is found.  Host 2 fences 5 and 1 and is fenced by 1; 1 and 2 both survive *)
Theorem C103_several_refuted : exists proc e1 e2, agent_of e1 11 5 /\ agent_of e2 12 1 /\ runs_agent proc 11 /\ runs_agent proc 12 /\ check_fence_agent proc (Some [e1; e2]) = Found 5 /\
  fst (duel 2 (Some 5) true true) = false /\ fst (duel 2 (Some 1) true true) = true /\ fst (duel 1 (Some 2) true true) = false.
Proof.
  exists (fun _ => Some ("fence_sanlock" ++ NL)%string), (agent_file "11" "5" "1" "7" "99"), (agent_file "12" "1" "1" "7" "99").
  assert (N : forall a b, a = b -> b <> "" -> forall v, value a 0 = Some v -> number a v) by (intros a b -> X v V; split; assumption).
  split; [|split; [|split; [|split; [|split; [vm_compute; reflexivity|repeat split; reflexivity]]]]].
  - exists "11", "5", "1", "7", "99". split; [reflexivity|]. repeat split; try discriminate; try reflexivity; try (eexists; split; [discriminate|reflexivity]); cbn; lia.
  - exists "12", "1", "1", "7", "99". split; [reflexivity|]. repeat split; try discriminate; try reflexivity; try (eexists; split; [discriminate|reflexivity]); cbn; lia.
  - eexists. split; reflexivity.
  - eexists. split; reflexivity.
Qed.
Print Assumptions C103_several_refuted.

(* a line of 512 characters after the host id is written over the end of rest *)
Fixpoint xs (n : nat) : string := match n with O => "" | S n => String "x" (xs n) end.
Theorem C103_over_refuted : exists t, forall proc, check_fence_agent proc (Some [("fence_sanlock.pid.9", Some t)]) = Over.
Proof. exists ("9 host_id 1 " ++ xs 512)%string. intros proc. vm_compute. reflexivity. Qed.
Print Assumptions C103_over_refuted.

Example C103_nonvacuous :
  let proc p := if p =? 77 then Some ("fence_sanlock" ++ NL)%string else if p =? 1234 then Some ("bash" ++ NL)%string else None in
  check_fence_agent proc (Some [(".", None); ("fence_sanlock.pid.3", None); left_over; agent_file "77" "2" "3" "4" "5"]) = Found 2 /\
  check_fence_agent proc (Some [left_over]) = Error /\ check_fence_agent proc None = Error.
Proof. vm_compute. auto. Qed.
