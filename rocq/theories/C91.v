(* C91: what Python is told is what the library and the daemon reported *)
From Coq Require Import List NArith ZArith Lia Bool Arith String ZifyBool ZifyN ZifyNat.
From Verif Require Import Bytes Strings StateStr PyArgs PyOut C61.
Import ListNotations.
Open Scope N_scope.

(* ---- specification ---- *)
(* the text in a member: up to the first 0, at most the whole member *)
Fixpoint text (b : bytes) : bytes := match b with [] => [] | c :: r => if N.eq_dec c 0 then [] else c :: text r end.

(* Unicode: the UTF-8 form of a list of scalar values *)
Definition scalar (c : N) : Prop := c < 55296 \/ 57344 <= c < 1114112.
Definition encode (c : N) : bytes :=
  if c <? 128 then [c]
  else if c <? 2048 then [192 + c / 64; 128 + c mod 64]
  else if c <? 65536 then [224 + c / 4096; 128 + (c / 64) mod 64; 128 + c mod 64]
  else [240 + c / 262144; 128 + (c / 4096) mod 64; 128 + (c / 64) mod 64; 128 + c mod 64].
Definition unicode (b : bytes) : Prop := exists l, Forall scalar l /\ b = List.concat (map encode l).

(* memory as the library returns it: names fill 48 bytes, paths end within their 1024 *)
Definition ls_ok (l : pls) : Prop := List.length (l_name l) = 48%nat /\ List.length (l_path l) = 1024%nat /\ In 0 (l_path l).
Definition disk_ok (d : bytes * N) : Prop := List.length (fst d) = 1024%nat /\ In 0 (fst d).
Definition res_ok (r : pres_) : Prop :=
  List.length (r_ls r) = 48%nat /\ List.length (r_name r) = 48%nat /\ r_disks r <> [] /\ Forall disk_ok (r_disks r).

Open Scope string_scope.
Open Scope N_scope.
(* what Python is to see *)
Definition shown_ls (l : pls) : pyval :=
  VDict [("lockspace", VBytes (text (l_name l))); ("host_id", VInt (l_host l)); ("path", VStr (text (l_path l)));
         ("offset", VInt (l_off l)); ("flags", VInt (l_flags l))].
Definition shown_disk (d : bytes * N) : pyval := VTuple [VStr (text (fst d)); VInt (snd d)].
Definition shown_res (r : pres_) : pyval :=
  VDict [("lockspace", VBytes (text (r_ls r))); ("resource", VBytes (text (r_name r))); ("flags", VInt (r_flags r));
         ("version", VInt (r_lver r)); ("disks", VList (map shown_disk (r_disks r)))].
Definition shown_host (h : phost) : pyval :=
  VDict [("host_id", VInt (h_id h)); ("generation", VInt (h_gen h)); ("timestamp", VInt (h_time h));
         ("io_timeout", VInt (h_io h)); ("flags", VInt (h_flags h))].
Definition shown_event (e : pevent) : pyval :=
  VDict [("from_host_id", VInt (e_from e)); ("from_generation", VInt (e_fgen e)); ("host_id", VInt (e_host e));
         ("generation", VInt (e_gen e)); ("event", VInt (e_event e)); ("data", VInt (e_data e))].
(* a lease as the daemon knows it *)
Definition shown_held (r : sres) (version flags : N) : pyval :=
  VDict [("lockspace", VBytes (sr_space r)); ("resource", VBytes (sr_name r)); ("flags", VInt flags); ("version", VInt version);
         ("disks", VList (map (fun d => VTuple [VStr (sd_path d); VInt (sd_offset d)]) (sr_disks r)))].
Close Scope string_scope.

Definition C91_lockspaces_statement : Prop := forall ls, Forall ls_ok ls -> lockspaces_to_list ls = RVal (VList (map shown_ls ls)).
Definition C91_resources_statement : Prop := forall rs, Forall res_ok rs -> resources_to_list rs = RVal (VList (map shown_res rs)).
Definition C91_inquire_statement : Prop := forall rs s, rs <> [] -> Forall resource rs -> args_to_state rs = TOk s ->
  exists vs, inquire_result 0 (List.length rs) s = RVal (VList vs).

(* ---- proofs ---- *)
Lemma text_cstring : forall b r, In 0 b -> cstring (b ++ r)%list = Some (text b).
Proof.
  induction b as [|c b IH]; intros r I; [contradiction|]. cbn [app cstring text].
  destruct (N.eq_dec c 0) as [->|NE]; [reflexivity|]. destruct (N.eqb_spec c 0); [contradiction|].
  destruct I as [->|I]; [contradiction|]. rewrite IH by exact I. reflexivity.
Qed.

Lemma cstring_cont : forall b r, ~ In 0 b -> cstring (b ++ r)%list = match cstring r with Some s => Some (b ++ s)%list | None => None end.
Proof.
  induction b as [|c b IH]; intros r I; [cbn; destruct (cstring r); reflexivity|]. cbn [app cstring].
  destruct (N.eqb_spec c 0); [subst; exfalso; apply I; left; reflexivity|].
  rewrite IH by (intros J; apply I; right; exact J). destruct (cstring r); reflexivity.
Qed.

Lemma utf8_encode c r : scalar c -> utf8 (encode c ++ r)%list = utf8 r.
Proof.
  intros S. unfold encode.
  pose proof (N.div_mod c 64 ltac:(lia)) as D1. pose proof (N.mod_lt c 64 ltac:(lia)) as M1.
  pose proof (N.div_mod (c / 64) 64 ltac:(lia)) as D2. pose proof (N.mod_lt (c / 64) 64 ltac:(lia)) as M2.
  pose proof (N.div_mod (c / 4096) 64 ltac:(lia)) as D3. pose proof (N.mod_lt (c / 4096) 64 ltac:(lia)) as M3.
  assert (E2 : c / 64 / 64 = c / 4096) by (rewrite N.div_div by lia; reflexivity).
  assert (E3 : c / 4096 / 64 = c / 262144) by (rewrite N.div_div by lia; reflexivity).
  rewrite E2 in D2. rewrite E3 in D3. unfold scalar in S.
  remember (c / 64) as q1. remember (c mod 64) as m1. remember (c / 4096) as q2. remember (q1 mod 64) as m2.
  remember (c / 262144) as q3. remember (q2 mod 64) as m3. clear Heqq1 Heqm1 Heqq2 Heqm2 Heqq3 Heqm3 E2 E3.
  destruct (N.ltb_spec c 128).
  - cbn [app utf8]. replace (c <? 128) with true by lia. reflexivity.
  - destruct (N.ltb_spec c 2048).
    + cbn [app utf8]. unfold cont. replace (192 + q1 <? 128) with false by lia.
      replace ((194 <=? 192 + q1) && (192 + q1 <=? 223)) with true by lia.
      replace ((128 <=? 128 + m1) && (128 + m1 <=? 191)) with true by lia. reflexivity.
    + destruct (N.ltb_spec c 65536).
      * cbn [app utf8]. unfold cont. replace (224 + q2 <? 128) with false by lia.
        replace ((194 <=? 224 + q2) && (224 + q2 <=? 223)) with false by lia.
        replace ((224 <=? 224 + q2) && (224 + q2 <=? 239)) with true by lia.
        match goal with |- ?x && utf8 r = _ => replace x with true by lia end. reflexivity.
      * cbn [app utf8]. unfold cont. replace (240 + q3 <? 128) with false by lia.
        replace ((194 <=? 240 + q3) && (240 + q3 <=? 223)) with false by lia.
        replace ((224 <=? 240 + q3) && (240 + q3 <=? 239)) with false by lia.
        replace ((240 <=? 240 + q3) && (240 + q3 <=? 244)) with true by lia.
        match goal with |- ?x && utf8 r = _ => replace x with true by lia end. reflexivity.
Qed.

Lemma div_eq a b q r : r < b -> a = b * q + r -> a / b = q /\ a mod b = r.
Proof. intros L E. split; symmetry; [eapply N.div_unique; eauto|eapply N.mod_unique; eauto]. Qed.

Lemma utf8_step c b : utf8 (c :: b) = true -> exists s r, scalar s /\ (c :: b = encode s ++ r)%list /\ utf8 r = true.
Proof.
  cbn [utf8]. unfold cont. destruct (N.ltb_spec c 128).
  { intros U. exists c, b. unfold scalar, encode. replace (c <? 128) with true by lia. repeat split; auto; lia. }
  destruct ((194 <=? c) && (c <=? 223)) eqn:R2.
  { destruct b as [|d b]; [discriminate|]. intros U. apply andb_true_iff in U. destruct U as (U1 & U2).
    exists (64 * (c - 192) + (d - 128)), b. set (s := 64 * (c - 192) + (d - 128)).
    destruct (div_eq s 64 (c - 192) (d - 128) ltac:(lia) eq_refl) as (Q & M).
    split; [unfold scalar, s; lia|]. split; [|exact U2]. unfold encode.
    replace (s <? 128) with false by (unfold s; lia). replace (s <? 2048) with true by (unfold s; lia). rewrite Q, M.
    cbn [app]. f_equal; [lia|]. f_equal; lia. }
  destruct ((224 <=? c) && (c <=? 239)) eqn:R3.
  { destruct b as [|d [|e b]]; [discriminate|discriminate|]. intros U. apply andb_true_iff in U. destruct U as (U1 & U2).
    exists (64 * (64 * (c - 224) + (d - 128)) + (e - 128)), b. set (s := 64 * (64 * (c - 224) + (d - 128)) + (e - 128)).
    destruct (div_eq s 64 (64 * (c - 224) + (d - 128)) (e - 128) ltac:(lia) eq_refl) as (Q & M).
    destruct (div_eq (64 * (c - 224) + (d - 128)) 64 (c - 224) (d - 128) ltac:(lia) eq_refl) as (Q2 & M2).
    assert (Q3 : s / 4096 = c - 224) by (change 4096 with (64 * 64); rewrite <- N.div_div by lia; rewrite Q; exact Q2).
    split; [unfold scalar, s; lia|]. split; [|exact U2]. unfold encode.
    replace (s <? 128) with false by (unfold s; lia). replace (s <? 2048) with false by (unfold s; lia).
    replace (s <? 65536) with true by (unfold s; lia). rewrite Q3, Q, M, M2.
    cbn [app]. f_equal; [lia|]. f_equal; [lia|]. f_equal; lia. }
  destruct ((240 <=? c) && (c <=? 244)) eqn:R4; [|discriminate].
  { destruct b as [|d [|e [|f b]]]; try discriminate. intros U. apply andb_true_iff in U. destruct U as (U1 & U2).
    set (t := 64 * (c - 240) + (d - 128)). set (u := 64 * t + (e - 128)). set (s := 64 * u + (f - 128)). exists s, b.
    destruct (div_eq s 64 u (f - 128) ltac:(lia) eq_refl) as (Q & M).
    destruct (div_eq u 64 t (e - 128) ltac:(lia) eq_refl) as (Q2 & M2).
    destruct (div_eq t 64 (c - 240) (d - 128) ltac:(lia) eq_refl) as (Q3 & M3).
    assert (Q4 : s / 4096 = t) by (change 4096 with (64 * 64); rewrite <- N.div_div by lia; rewrite Q; exact Q2).
    assert (Q5 : s / 262144 = c - 240) by (change 262144 with (4096 * 64); rewrite <- N.div_div by lia; rewrite Q4; exact Q3).
    split; [unfold scalar, s, u, t; lia|]. split; [|exact U2]. unfold encode.
    replace (s <? 128) with false by (unfold s, u, t; lia). replace (s <? 2048) with false by (unfold s, u, t; lia).
    replace (s <? 65536) with false by (unfold s, u, t; lia). rewrite Q5, Q4, Q, M, M2, M3.
    cbn [app]. f_equal; [lia|]. f_equal; [lia|]. f_equal; [lia|]. f_equal; lia. }
Qed.

(* the decoder accepts the UTF-8 forms and nothing else *)
Theorem C91_utf8 : forall b, utf8 b = true <-> unicode b.
Proof.
  intros b. split.
  - remember (List.length b) as n. assert (L : (List.length b <= n)%nat) by lia. clear Heqn. revert b L.
    induction n as [|n IH]; intros b L U.
    + destruct b; [|cbn in L; lia]. exists []. split; [constructor|reflexivity].
    + destruct b as [|c b]; [exists []; split; [constructor|reflexivity]|].
      destruct (utf8_step c b U) as (s & r & S & E & Ur). rewrite E in L. rewrite app_length in L.
      assert (1 <= List.length (encode s))%nat by (unfold encode; repeat destruct (_ <? _); cbn; lia).
      destruct (IH r ltac:(lia) Ur) as (l & Fl & El). exists (s :: l). split; [constructor; auto|]. rewrite E, El. reflexivity.
  - intros (l & F & ->). induction F as [|s l S F IH]; [reflexivity|]. cbn [map List.concat]. rewrite utf8_encode by exact S. exact IH.
Qed.
Print Assumptions C91_utf8.

Lemma each_all {A} (f : A -> pyres) (g : A -> pyval) l : (forall x, In x l -> f x = RVal (g x)) -> each f l = RVal (VList (map g l)).
Proof.
  induction l as [|x l IH]; intros H; [reflexivity|]. cbn [each map]. rewrite (H x (or_introl eq_refl)).
  rewrite IH by (intros y I; apply H; right; exact I). reflexivity.
Qed.

Lemma each_list {A} (f : A -> pyres) l v : each f l = RVal v -> exists vs, v = VList vs.
Proof.
  destruct l as [|x l]; cbn [each]; [intros H; injection H as <-; eexists; reflexivity|].
  destruct (f x); try discriminate. destruct (each f l) as [w| |]; try discriminate. destruct w; try discriminate.
  intros H. injection H as <-. eexists. reflexivity.
Qed.

Lemma each_raise {A} (f : A -> pyres) l y : (forall x, In x l -> f x <> RCrash) -> In y l -> f y = RRaise -> each f l = RRaise.
Proof.
  induction l as [|x l IH]; intros NC I R; [contradiction|]. cbn [each]. destruct I as [->|I]; [rewrite R; reflexivity|].
  rewrite IH; auto; [|intros z J; apply NC; right; exact J]. destruct (f x) eqn:E; auto. exfalso. apply (NC x (or_introl eq_refl) E).
Qed.

Lemma each_safe {A} (f : A -> pyres) l : (forall x, In x l -> f x <> RCrash) -> each f l <> RCrash.
Proof.
  induction l as [|x l IH]; intros NC; [discriminate|]. cbn [each]. pose proof (NC x (or_introl eq_refl)) as N1.
  assert (N2 : each f l <> RCrash) by (apply IH; intros z J; apply NC; right; exact J).
  destruct (f x); try discriminate; [|contradiction]. destruct (each f l) as [w| |] eqn:E; try discriminate; [|contradiction].
  destruct (each_list _ _ _ E) as (vs & ->). discriminate.
Qed.

Lemma path_shown p o : In 0 p -> utf8 (text p) = true -> fmt_s (disk_mem (p, o)) = RVal (VStr (text p)).
Proof. intros I U. unfold fmt_s, disk_mem. cbn [fst]. rewrite text_cstring by exact I. rewrite U. reflexivity. Qed.

Lemma path_other p o : In 0 p -> utf8 (text p) = false -> fmt_s (disk_mem (p, o)) = RRaise.
Proof. intros I U. unfold fmt_s, disk_mem. cbn [fst]. rewrite text_cstring by exact I. rewrite U. reflexivity. Qed.

Lemma path_safe p o : In 0 p -> fmt_s (disk_mem (p, o)) <> RCrash.
Proof. intros I U. unfold fmt_s, disk_mem in U. cbn [fst] in U. rewrite text_cstring in U by exact I. destruct (utf8 _); discriminate. Qed.

Lemma cstring_some : forall m, In 0 m -> exists s, cstring m = Some s.
Proof.
  induction m as [|c m IH]; intros I; [contradiction|]. cbn [cstring]. destruct (N.eqb_spec c 0); [eexists; reflexivity|].
  destruct I as [->|I]; [contradiction|]. destruct (IH I) as (s & ->). eexists. reflexivity.
Qed.

(* the hosts, as they are *)
Theorem C91_hosts : forall hs, hosts_to_list hs = RVal (VList (map shown_host hs)).
Proof. intros hs. apply each_all. reflexivity. Qed.
Print Assumptions C91_hosts.

(* the lockspaces, if no name has 48 bytes and all paths are Unicode *)
Theorem C91_lockspaces_partial : forall ls, Forall ls_ok ls ->
  Forall (fun l => (List.length (text (l_name l)) < 48)%nat /\ unicode (text (l_path l))) ls ->
  lockspaces_to_list ls = RVal (VList (map shown_ls ls)).
Proof.
  intros ls F G. apply each_all. intros l I. rewrite Forall_forall in F, G. destruct (F l I) as (LN & LP & ZP). destruct (G l I) as (TN & UP).
  assert (ZN : In 0 (l_name l)).
  { destruct (in_dec N.eq_dec 0 (l_name l)) as [J|J]; auto. exfalso.
    assert (forall b, ~ In 0 b -> text b = b) as T.
    { induction b as [|c b IH]; intros K; [reflexivity|]. cbn [text]. destruct (N.eq_dec c 0) as [->|NE]; [exfalso; apply K; left; reflexivity|].
      f_equal. apply IH. intros Q; apply K; right; exact Q. }
    rewrite T in TN by exact J. lia. }
  unfold ls_entry, fmt_y, ls_mem. rewrite text_cstring by exact ZN. rewrite path_shown by (auto; apply C91_utf8; exact UP). reflexivity.
Qed.
Print Assumptions C91_lockspaces_partial.

Lemma text_whole b : ~ In 0 b -> text b = b.
Proof.
  induction b as [|c b IH]; intros K; [reflexivity|]. cbn [text]. destruct (N.eq_dec c 0) as [->|NE]; [exfalso; apply K; left; reflexivity|].
  f_equal. apply IH. intros Q; apply K; right; exact Q.
Qed.
Lemma text_short b : (List.length (text b) < List.length b)%nat -> In 0 b.
Proof. intros L. destruct (in_dec N.eq_dec 0 b) as [J|J]; auto. exfalso. rewrite text_whole in L by exact J. lia. Qed.

Theorem C91_resources_partial : forall rs, Forall res_ok rs ->
  Forall (fun r => (List.length (text (r_ls r)) < 48)%nat /\ (List.length (text (r_name r)) < 48)%nat /\
                   Forall (fun d => unicode (text (fst d))) (r_disks r)) rs ->
  resources_to_list rs = RVal (VList (map shown_res rs)).
Proof.
  intros rs F G. apply each_all. intros r I. rewrite Forall_forall in F, G. destruct (F r I) as (LL & LN & ND & DO). destruct (G r I) as (TL & TN & UD).
  unfold res_entry, disks_to_list. rewrite (each_all disk_entry shown_disk).
  2:{ intros d J. rewrite Forall_forall in DO, UD. destruct (DO d J) as (_ & Z). unfold disk_entry. destruct d as (p, o). cbn [fst snd] in *.
      rewrite path_shown; auto. apply C91_utf8. apply (UD (p, o) J). }
  unfold fmt_y, res_mem, res_mem_name.
  rewrite (text_cstring (r_ls r)) by (apply text_short; lia). rewrite (text_cstring (r_name r)) by (apply text_short; lia). reflexivity.
Qed.
Print Assumptions C91_resources_partial.

Lemma disk_zero d : In 0 (disk_mem d).
Proof. unfold disk_mem. apply in_or_app. right. apply in_or_app. right. left. reflexivity. Qed.

(* no read goes past the memory *)
Theorem C91_safe : forall ls rs, Forall ls_ok ls -> Forall res_ok rs ->
  lockspaces_to_list ls <> RCrash /\ resources_to_list rs <> RCrash.
Proof.
  intros ls rs F G. split; apply each_safe; intros x I.
  - rewrite Forall_forall in F. destruct (F x I) as (LN & LP & ZP). unfold ls_entry, fmt_y.
    destruct (cstring_some (ls_mem x)) as (s & ->). { unfold ls_mem. do 4 (apply in_or_app; right). apply disk_zero. }
    pose proof (path_safe (l_path x) (l_off x) ZP). destruct (fmt_s _); congruence.
  - rewrite Forall_forall in G. destruct (G x I) as (LL & LN & ND & DO). unfold res_entry, fmt_y.
    assert (Z : In 0 (res_mem_name x)).
    { unfold res_mem_name. apply in_or_app. right. apply in_or_app. right. apply in_or_app. left. left. reflexivity. }
    assert (SD : disks_to_list (r_disks x) <> RCrash).
    { apply each_safe. intros (p, o) J. rewrite Forall_forall in DO. destruct (DO _ J) as (_ & ZP). cbn [fst] in ZP. unfold disk_entry.
      pose proof (path_safe p o ZP). cbn [snd]. destruct (fmt_s _); congruence. }
    destruct (cstring_some (res_mem_name x) Z) as (s & E). destruct (cstring_some (res_mem x)) as (s' & E').
    { unfold res_mem. apply in_or_app. right. exact Z. }
    rewrite E, E'. destruct (disks_to_list (r_disks x)); congruence.
Qed.
Print Assumptions C91_safe.

Lemma le1 n v : exists r, le_enc (S n) v = v mod 256 :: r.
Proof. eexists. reflexivity. Qed.

(* every name of 48 bytes is shown with bytes of the host id behind it, unless the id ends in a zero byte *)
Theorem C91_full_name_refuted : forall l, ls_ok l -> ~ In 0 (l_name l) -> l_host l mod 256 <> 0 ->
  forall v, ls_entry l = RVal v -> v <> shown_ls l.
Proof.
  intros l (LN & LP & ZP) NZ H v E. unfold ls_entry, fmt_y, ls_mem in E. rewrite cstring_cont in E by exact NZ.
  destruct (le1 7 (l_host l)) as (t & T). rewrite T in E. cbn [app cstring] in E.
  destruct (N.eqb_spec (l_host l mod 256) 0); [contradiction|].
  destruct (cstring _) as [s|] in E; [|discriminate]. destruct (fmt_s _); try discriminate. injection E as <-.
  unfold shown_ls. rewrite text_whole by exact NZ. intros Q. injection Q as Q. apply (f_equal (@List.length N)) in Q. rewrite app_length in Q. cbn in Q. lia.
Qed.
Print Assumptions C91_full_name_refuted.

Definition full_name : bytes := repeat 97 48.
Definition a_path : bytes := path_buf [47; 100].
Theorem C91_lockspaces_refuted : ~ C91_lockspaces_statement.
Proof.
  intros H. specialize (H [Pls full_name 1 0 a_path 0]).
  assert (F : ls_ok (Pls full_name 1 0 a_path 0)) by (repeat split; right; right; left; reflexivity).
  specialize (H ltac:(constructor; [exact F|constructor])). unfold lockspaces_to_list in H. cbn [each map] in H.
  destruct (ls_entry (Pls full_name 1 0 a_path 0)) as [v| |] eqn:E; try discriminate. injection H as H.
  revert H. apply C91_full_name_refuted; auto; [|discriminate]. unfold full_name. cbn [l_name]. intros I. apply repeat_spec in I. discriminate.
Qed.
Print Assumptions C91_lockspaces_refuted.

(* the lockspace name of 48 bytes is shown with the resource name behind it *)
Theorem C91_resources_refuted : ~ C91_resources_statement.
Proof.
  intros H. specialize (H [Pres full_name (name_buf [114]) 3 0 [(a_path, 0)]]).
  assert (F : res_ok (Pres full_name (name_buf [114]) 3 0 [(a_path, 0)])).
  { repeat split; [discriminate|]. constructor; [|constructor]. split; [reflexivity|right; right; left; reflexivity]. }
  specialize (H ltac:(constructor; [exact F|constructor])). vm_compute in H. discriminate H.
Qed.
Print Assumptions C91_resources_refuted.

(* one path which is not UTF-8 hides all lockspaces *)
Theorem C91_one_path_refuted : forall ls l, Forall ls_ok ls -> In l ls -> ~ unicode (text (l_path l)) -> lockspaces_to_list ls = RRaise.
Proof.
  intros ls l F I U. unfold lockspaces_to_list. assert (S : forall x, In x ls -> ls_entry x <> RCrash).
  { intros x J. rewrite Forall_forall in F. destruct (F x J) as (LN & LP & ZP). unfold ls_entry, fmt_y.
    destruct (cstring_some (ls_mem x)) as (s & ->). { unfold ls_mem. do 4 (apply in_or_app; right). apply disk_zero. }
    pose proof (path_safe (l_path x) (l_off x) ZP). destruct (fmt_s _); congruence. }
  apply (each_raise ls_entry ls l S I). specialize (S l I). rewrite Forall_forall in F. destruct (F l I) as (LN & LP & ZP).
  unfold ls_entry in *. destruct (fmt_y _); auto; [|contradiction].
  rewrite path_other; auto. apply not_true_iff_false. rewrite C91_utf8. exact U.
Qed.
Print Assumptions C91_one_path_refuted.
Example C91_bad_path : ~ unicode (text (path_buf [47; 255])).
Proof. rewrite <- C91_utf8. vm_compute. discriminate. Qed.

Lemma strncpy_short k m b : ~ In 0 b -> (List.length b <= k)%nat -> strncpy k m b = (b ++ repeat 0 (m - List.length b))%list.
Proof.
  intros Nb Lb. unfold strncpy. assert (upto_nul b = b) as ->.
  { clear -Nb. induction b as [|x b IH]; [reflexivity|]. cbn [upto_nul]. destruct (N.eqb_spec x 0); [subst; exfalso; apply Nb; left; reflexivity|].
    f_equal. apply IH. intros J; apply Nb; right; exact J. }
  rewrite firstn_all2 by lia. reflexivity.
Qed.
Lemma NB b : ~ In 0 b -> (List.length b <= 47)%nat -> name_buf b = (b ++ repeat 0 (48 - List.length b))%list.
Proof. intros Nb Lb. apply strncpy_short; [exact Nb|unfold SANLK_NAME_LEN; lia]. Qed.
Lemma PB b : ~ In 0 b -> (List.length b <= 1023)%nat -> path_buf b = (b ++ repeat 0 (1024 - List.length b))%list.
Proof. intros Nb Lb. apply strncpy_short; [exact Nb|unfold SANLK_PATH_LEN; lia]. Qed.
Lemma T : forall b k, ~ In 0 b -> text (b ++ repeat 0 k)%list = b.
Proof.
  induction b as [|x b IH]; intros k Nb; [destruct k; reflexivity|]. cbn [app text]. destruct (N.eq_dec x 0) as [->|]; [exfalso; apply Nb; left; reflexivity|].
  f_equal. apply IH. intros J; apply Nb; right; exact J.
Qed.

(* what was added is listed with the arguments it was added with *)
#[local] Opaque name_buf path_buf.
Theorem C91_round_trip : forall n h p off io w c,
  run FAddLockspace [OBytes n; OInt (Z.of_N h); OBytes p; OInt (Z.of_N off); OInt io; OInt w] [] = Some c ->
  ~ In 0 n -> (List.length n <= 47)%nat -> ~ In 0 p -> (List.length p <= 1023)%nat -> unicode p -> h < 2 ^ 64 -> off < 2 ^ 64 ->
  exists l fl io', c = LAddLockspace l fl io' /\
  lockspaces_to_list [l] = RVal (VList [VDict [("lockspace", VBytes n); ("host_id", VInt h); ("path", VStr p); ("offset", VInt off); ("flags", VInt 0)]%string]).
Proof.
  intros n h p off io w c R N0 NL P0 PL U H O.
  assert (W : forall x, x < 2 ^ 64 -> wrap 64 (Z.of_N x) = x).
  { intros x L. unfold wrap. rewrite Z.mod_small by lia. lia. }
  unfold run in R. cbn [positional andb] in R. unfold parse in R. cbn [kw_known forallb] in R. unfold params, bind, req, opt, kw_get, conv in R.
  rewrite !W in R by assumption. destruct (has_nul p); [discriminate|]. destruct (sfits 32 w); [|discriminate].
  cbn [body] in R. injection R as <-. eexists _, _, _. split; [reflexivity|].
  pose proof (NB n N0 NL) as EN. pose proof (PB p P0 PL) as EP.
  rewrite C91_lockspaces_partial.
  - unfold shown_ls. cbn [map l_name l_host l_path l_off l_flags]. rewrite EN, EP, !T by assumption. reflexivity.
  - constructor; [|constructor]. unfold ls_ok. cbn [l_name l_path]. rewrite EN, EP, !app_length, !repeat_length. repeat split; try lia.
    apply in_or_app. right. destruct (1024 - List.length p)%nat eqn:E; [lia|]. left. reflexivity.
  - constructor; [|constructor]. cbn [l_name l_path]. rewrite EN, EP, !T by assumption. split; [lia|exact U].
Qed.
Print Assumptions C91_round_trip.

(* the leases of a process: ordinary names and Unicode paths *)
Theorem C91_inquire_partial : forall rs s, rs <> [] -> Forall resource rs -> Forall ordinary rs ->
  Forall (fun r => Forall (fun d => unicode (sd_path d)) (sr_disks r)) rs -> args_to_state rs = TOk s ->
  exists vs, inquire_result 0 (List.length rs) s = RVal (VList vs) /\
  Forall2 (fun r v => exists version flags, v = shown_held r version flags /\ N.testbit flags 2 = N.testbit (sr_flags r) 2 /\
                        (N.testbit flags 2 = false -> version = sr_lver r)) rs vs.
Proof.
  intros rs s NE R O U E. destruct (C61_round_trip_partial rs NE R O) as (s' & rs' & E' & P & S2). rewrite E in E'. injection E' as <-.
  unfold inquire_result. cbn [Z.eqb negb]. destruct rs as [|r0 rs0] eqn:Ers; [contradiction|]. rewrite <- Ers in *. clear Ers r0 rs0.
  destruct (Nat.ltb_spec 0 (List.length rs)) as [L|L]; [|destruct rs; [contradiction|cbn in L; lia]]. rewrite P. clear P E s L NE.
  exists (map (fun r => shown_held r (sr_lver r) (sr_flags r)) rs').
  assert (K : Forall (fun r => ~ In 0 (sr_space r) /\ (List.length (sr_space r) <= 47)%nat /\ ~ In 0 (sr_name r) /\ (List.length (sr_name r) <= 47)%nat /\
                sr_disks r <> [] /\ forall d, In d (sr_disks r) -> ~ In 0 (sd_path d) /\ (List.length (sd_path d) <= 1023)%nat /\ unicode (sd_path d)) rs').
  { clear -R U S2. induction S2 as [|a b la lb S S2 IH]; [constructor|]. inversion R as [|? ? Ra R']; subst. inversion U as [|? ? Ua U']; subst.
    constructor; [|apply IH; auto]. destruct S as (S1 & S3 & S4 & _). destruct Ra as (N1 & L1 & N2 & L2 & LD & DD & _).
    rewrite <- S1, <- S3, <- S4. repeat split; auto; try lia.
    - intros Q. rewrite Q in LD. cbn in LD. lia.
    - apply (DD d H).
    - destruct (DD d H) as (_ & Q & _). lia.
    - rewrite Forall_forall in Ua. apply Ua. exact H. }
  split.
  - rewrite C91_resources_partial.
    + f_equal. f_equal. rewrite map_map. apply map_ext_in. intros r I. rewrite Forall_forall in K. destruct (K r I) as (N1 & L1 & N2 & L2 & ND & DD).
      unfold shown_res, shown_held, of_sres. cbn [r_ls r_name r_flags r_lver r_disks]. rewrite !NB, !T by assumption. rewrite map_map.
      assert (MD : map (fun x => shown_disk (path_buf (sd_path x), sd_offset x)) (sr_disks r) =
                   map (fun d => VTuple [VStr (sd_path d); VInt (sd_offset d)]) (sr_disks r)).
      { apply map_ext_in. intros d J. destruct (DD d J) as (Nd & Ld & _). unfold shown_disk. cbn [fst snd]. rewrite PB, T by assumption. reflexivity. }
      rewrite MD. reflexivity.
    + apply Forall_forall. intros x I. apply in_map_iff in I. destruct I as (r & <- & I). rewrite Forall_forall in K. destruct (K r I) as (N1 & L1 & N2 & L2 & ND & DD).
      unfold res_ok, of_sres. cbn [r_ls r_name r_disks]. rewrite !NB by assumption. rewrite !app_length, !repeat_length. repeat split; try lia.
      * intros Q. apply map_eq_nil in Q. contradiction.
      * apply Forall_forall. intros x J. apply in_map_iff in J. destruct J as (d & <- & J). destruct (DD d J) as (Nd & Ld & _).
        unfold disk_ok. cbn [fst]. rewrite PB by assumption. rewrite app_length, repeat_length. split; [lia|]. apply in_or_app. right.
        destruct (1024 - List.length (sd_path d))%nat eqn:Q; [lia|]. left. reflexivity.
    + apply Forall_forall. intros x I. apply in_map_iff in I. destruct I as (r & <- & I). rewrite Forall_forall in K. destruct (K r I) as (N1 & L1 & N2 & L2 & ND & DD).
      unfold of_sres. cbn [r_ls r_name r_disks]. rewrite !NB, !T by assumption. split; [lia|]. split; [lia|].
      apply Forall_forall. intros x J. apply in_map_iff in J. destruct J as (d & <- & J). destruct (DD d J) as (Nd & Ld & Ud).
      cbn [fst]. rewrite PB, T by assumption. exact Ud.
  - clear -S2. induction S2 as [|a b la lb S S2 IH]; [constructor|]. cbn [map]. constructor; [|exact IH].
    destruct S as (S1 & S3 & S4 & S5 & S6). exists (sr_lver b), (sr_flags b). repeat split.
    + unfold shown_held. rewrite S1, S3, S4. reflexivity.
    + congruence.
    + intros Q. symmetry. apply S6. congruence.
Qed.
Print Assumptions C91_inquire_partial.

(* a name with a colon: the process which asks crashes *)
Theorem C91_inquire_refuted : exists rs s, rs <> [] /\ Forall resource rs /\ args_to_state rs = TOk s /\
  inquire_result 0 (List.length rs) s = RCrash.
Proof.
  (* l:a:b:/d:0:1 *)
  exists [mkSres [108] [97; 58; 98] 1 1 [mkSdisk [47; 100] 0]], [108; 58; 97; 58; 98; 58; 47; 100; 58; 48; 58; 49]. split; [discriminate|]. split.
  - constructor; [|constructor]. unfold resource. cbn [sr_space sr_name sr_disks sr_lver List.length]. repeat split; try lia; try (cbn; intuition discriminate).
    all: intros; destruct H as [<-|[]]; cbn; intuition discriminate || lia.
  - split; vm_compute; reflexivity.
Qed.
Print Assumptions C91_inquire_refuted.
Theorem C91_inquire_statement_refuted : ~ C91_inquire_statement.
Proof.
  intros H. destruct C91_inquire_refuted as (rs & s & NE & R & E & C). destruct (H rs s NE R E) as (vs & V). rewrite C in V. discriminate.
Qed.
Print Assumptions C91_inquire_statement_refuted.

Lemma loop_app : forall es acc k r, get_event_loop (map EvOk es ++ r)%list acc k = get_event_loop r (acc ++ map shown_event es)%list (k + List.length es)%nat.
Proof.
  induction es as [|e es IH]; intros acc k r; cbn [map app List.length get_event_loop]; [rewrite app_nil_r, Nat.add_0_r; reflexivity|].
  rewrite IH, <- app_assoc. cbn [app]. f_equal. lia.
Qed.

(* the events waiting, each once and in order *)
Theorem C91_events : forall es rest, get_event_loop (map EvOk es ++ EvErr (-11) :: rest)%list [] 0 =
  Some (RVal (VList (map shown_event es)), S (List.length es)).
Proof. intros es rest. rewrite loop_app. reflexivity. Qed.
Print Assumptions C91_events.

(* an error behind them: they have been read and are lost *)
Theorem C91_events_refuted : forall es rv rest, (rv <> -11)%Z ->
  get_event_loop (map EvOk es ++ EvErr rv :: rest)%list [] 0 = Some (RRaise, S (List.length es)).
Proof. intros es rv rest NE. rewrite loop_app. cbn [get_event_loop]. destruct (Z.eqb_spec rv (-11)); [contradiction|reflexivity]. Qed.
Print Assumptions C91_events_refuted.

(* the four answers about a lockspace; -1000 is no result of the library *)
Theorem C91_inq : forall rv,
  (inq_result rv = RVal VTrue <-> rv = 0%Z) /\ (inq_result rv = RVal VFalse <-> rv = (-2)%Z) /\
  (inq_result rv = RVal VNone <-> rv = (-115)%Z) /\ inq_result rv <> RCrash.
Proof.
  intros rv. unfold inq_result.
  destruct (Z.eqb_spec rv (-1000)), (Z.eqb_spec rv 0), (Z.eqb_spec rv (-2)), (Z.eqb_spec rv (-115));
    repeat split; intros; try discriminate; try congruence; try lia.
Qed.
Print Assumptions C91_inq.

(* an error of the system has its number, one of sanlock (-200 and below) is kept, and they are told apart *)
Theorem C91_error_number :
  (forall e, (1 <= e < 200)%Z -> error_number (- e) = e) /\
  (forall e, (e <= -200)%Z -> error_number e = e) /\
  (forall a b, (a <= 0)%Z -> (b <= 0)%Z -> error_number a = error_number b -> a = b).
Proof.
  unfold error_number. split; [|split].
  - intros e H. destruct ((- e <? 0) && (-200 <? - e))%Z eqn:E; lia.
  - intros e H. destruct ((e <? 0) && (-200 <? e))%Z eqn:E; lia.
  - intros a b A B. destruct ((a <? 0) && (-200 <? a))%Z eqn:Ea, ((b <? 0) && (-200 <? b))%Z eqn:Eb; lia.
Qed.
Print Assumptions C91_error_number.

Example C91_nonvacuous :
  ls_ok (Pls (name_buf [97]) 1 0 (path_buf [47; 195; 164]) 0) /\ unicode [47; 195; 164] /\
  lockspaces_to_list [Pls (name_buf [97]) 1 0 (path_buf [47; 195; 164]) 512] =
    RVal (VList [VDict [("lockspace", VBytes [97]); ("host_id", VInt 1); ("path", VStr [47; 195; 164]); ("offset", VInt 512); ("flags", VInt 0)]%string]) /\
  (exists s, args_to_state [mkSres [108] [97; 98] 7 1 [mkSdisk [47; 100] 0]] = TOk s /\
     inquire_result 0 1 s = RVal (VList [shown_held (mkSres [108] [97; 98] 7 1 [mkSdisk [47; 100] 0]) 7 1])) /\
  (exists c, run FAddLockspace [OBytes [97]; OInt (Z.of_N 1); OBytes [47]; OInt (Z.of_N 0); OInt 10; OInt 1] [] = Some c) /\
  get_event_loop [EvOk (Pevent 1 2 3 4 5 6); EvErr (-11)] [] 0 = Some (RVal (VList [shown_event (Pevent 1 2 3 4 5 6)]), 2%nat).
Proof.
  split. { repeat split. vm_compute. tauto. }
  split. { exists [47; 228]. split; [repeat constructor; left; reflexivity|reflexivity]. }
  split; [vm_compute; reflexivity|].
  split; [exists [108; 58; 97; 98; 58; 47; 100; 58; 48; 58; 55]; split; vm_compute; reflexivity|].
  split; [|reflexivity]. destruct (run FAddLockspace _ _) eqn:E; [eexists; reflexivity|]. vm_compute in E. discriminate E.
Qed.
