(* C59: on a registered connection the daemon executes exactly the commands that were called *)
From Coq Require Import List NArith ZArith Lia Bool Arith.
From Verif Require Import Bytes Framing.
Import ListNotations.
Open Scope nat_scope.

(* ---- specification ---- *)
(* what the types and the checks of the library admit *)
Definition valid (c : call) : Prop :=
  match c with
  | CAcquire f rs opt =>
      (f < 2 ^ 32)%N /\ length rs <= 8 /\ length opt = 56 /\
      Forall (fun a => length (a_res a) = 128 /\ length (a_disks a) <= 4
                       /\ le_dec (skipn 124 (a_res a)) = N.of_nat (length (a_disks a))
                       /\ Forall (fun d => length d = 1040) (a_disks a)) rs
  | CRelease f rs => (f < 2 ^ 32)%N /\ Forall (fun r => length r = 128) rs /\ (N.of_nat (length rs) < 2 ^ 24)%N
  | CInquire f => (f < 2 ^ 32)%N
  | CConvert f res => (f < 2 ^ 32)%N /\ length res = 128
  | CKillpath f p a => (f < 2 ^ 32)%N /\ length p = 128 /\ length a = 128
  | CRestrict f => (f < 2 ^ 32)%N
  end.

(* one command, the one of the call, and the daemon waits for the next header *)
Definition in_step (es : list env) (c : call) : Prop := daemon es c = ([call_hdr c], Idle).

Definition C59_statement : Prop := forall es c, valid c -> in_step es c.

(* the number of resources goes with the flags of release (src/sanlock_resource.h:64-85) *)
Definition documented (c : call) : Prop :=
  match c with
  | CRelease f rs =>
      if N.testbit f 0 then rs = [] else if N.testbit f 2 then length rs = 1
      else if N.testbit f 1 then length rs = 2 else True
  | _ => True
  end.

(* ---- proofs ---- *)
Lemma len32 c : valid c -> (N.of_nat (HSIZE + length (payload c)) < 2 ^ 32)%N.
Proof.
  destruct c; cbn [valid payload]; unfold HSIZE.
  - intros (_ & L & O & F). rewrite app_length, O.
    assert (B : forall l, Forall (fun a => length (a_res a) = 128 /\ length (a_disks a) <= 4
         /\ le_dec (skipn 124 (a_res a)) = N.of_nat (length (a_disks a)) /\ Forall (fun d => length d = 1040) (a_disks a)) l ->
         (N.of_nat (length (concat (map (fun a => a_res a ++ concat (a_disks a)) l))) <= N.of_nat (length l) * 4288)%N).
    { induction l as [|a l IH]; intros F0; [reflexivity|]. inversion F0 as [|? ? (A1 & A2 & _ & A4) F1]; subst. specialize (IH F1).
      cbn [map concat length]. rewrite !app_length, A1.
      assert (D : forall m, Forall (fun d : list N => length d = 1040) m -> (N.of_nat (length (concat m)) = N.of_nat (length m) * 1040)%N).
      { induction m as [|d m IHm]; intros F2; [reflexivity|]. inversion F2; subst. cbn [concat length]. rewrite app_length. specialize (IHm H2). lia. }
      specialize (D _ A4). lia. }
    specialize (B _ F). lia.
  - intros (_ & F & L).
    assert (B : forall l : list bytes, Forall (fun r => length r = 128) l -> (N.of_nat (length (concat l)) = N.of_nat (length l) * 128)%N).
    { induction l as [|a l IH]; intros F0; [reflexivity|]. inversion F0; subst. specialize (IH H2). cbn [concat length]. rewrite app_length. lia. }
    specialize (B _ F). lia.
  - intros _. cbn. reflexivity.
  - intros (_ & ->). reflexivity.
  - intros (_ & A & B). rewrite app_length, A, B. reflexivity.
  - intros _. reflexivity.
Qed.

Lemma call_hdr_wf c : valid c -> hdr_wf (call_hdr c).
Proof.
  intros V. pose proof (len32 c V) as L. unfold hdr_wf.
  destruct c; cbn [call_hdr h_magic h_version h_cmd h_flags h_length h_seq h_data h_data2 valid] in *;
    repeat split; try reflexivity; try exact L; try tauto; try apply V; destruct V as (V1 & V2); try lia.
Qed.

Lemma daemon_first es c : valid c ->
  daemon es c =
  (let h := call_hdr c in let e := hd (mkEnv false None) es in
   let go o := match o with
               | None => ([h], Waiting)
               | Some s2 => let (l, st) := serve (length (call_bytes c)) (tl es) s2 in (h :: l, st)
               end in
   match c with
   | CRestrict _ => go (Some [])
   | _ => if e_refused e then go (Some []) else
          match c with
          | CAcquire _ _ _ => go (read_acquire h e (payload c))
          | CRelease _ _ => go (read_release h (payload c))
          | CConvert _ _ => go (recv_many 1 (payload c))
          | CKillpath _ _ _ => go (match recv_n PSIZE (payload c) with None => None
                    | Some (_, s2) => match recv_n PSIZE s2 with None => None | Some (_, s3) => Some s3 end end)
          | _ => go (Some [])
          end
   end).
Proof.
  intros V. unfold daemon. generalize (length (call_bytes c)) as f. intros f. cbn [serve].
  unfold call_bytes at 1. destruct (enc_hdr (call_hdr c) ++ payload c) as [|x r] eqn:E.
  { pose proof (f_equal (@length _) E) as L. rewrite app_length, enc_hdr_length in L. discriminate. }
  clear E. unfold call_bytes. rewrite (recv_n_app HSIZE _ _ (enc_hdr_length _)). rewrite (dec_enc_hdr _ (call_hdr_wf c V)).
  assert (R : recv_all (h_length (call_hdr c)) 0 (payload c) = []).
  { apply recv_all_call. destruct c; cbn [call_hdr h_length]; lia. }
  rewrite R. destruct c; reflexivity.
Qed.

Lemma serve_nil f es : serve f es [] = ([], Idle).
Proof. destruct f; reflexivity. Qed.

Lemma concat_len (m : list bytes) n : Forall (fun d => length d = n) m -> length (concat m) = length m * n.
Proof. induction 1; cbn; auto. rewrite app_length. lia. Qed.

Lemma acq_reads e : forall rs opt i pos len,
  Forall (fun a => length (a_res a) = 128 /\ length (a_disks a) <= 4
          /\ le_dec (skipn 124 (a_res a)) = N.of_nat (length (a_disks a)) /\ Forall (fun d => length d = 1040) (a_disks a)) rs ->
  length opt = 56 ->
  let p := concat (map (fun a => a_res a ++ concat (a_disks a)) rs) ++ opt in
  N.to_nat len = HSIZE + pos + length p ->
  match acq_res (length rs) i e pos p with
  | None => False
  | Some (false, pos', s) => recv_all len pos' s = []
  | Some (true, pos', s) => s = opt
  end.
Proof.
  induction rs as [|a rs IH]; intros opt i pos len F O; cbn [length acq_res map concat app].
  - auto.
  - intros L. inversion F as [|? ? (A1 & A2 & A3 & A4) F1]; subst.
    destruct (match e_abort e with Some k => k =? i | None => false end).
    { apply recv_all_call. exact L. }
    rewrite <- !app_assoc. rewrite <- !app_assoc in L. rewrite (recv_n_app RSIZE) by exact A1.
    assert (ND : num_disks (a_res a) = N.of_nat (length (a_disks a))).
    { unfold num_disks, get. rewrite firstn_all2; [exact A3|]. rewrite skipn_length, A1. cbn. lia. }
    rewrite ND.
    destruct ((N.of_nat (length (a_disks a)) =? 0)%N || (MAX_DISKS <? N.of_nat (length (a_disks a)))%N) eqn:C.
    { apply recv_all_call. rewrite app_length in L. unfold RSIZE. lia. }
    pose proof (concat_len _ _ A4) as CL.
    rewrite Nat2N.id. rewrite (recv_n_app _ _ _ CL).
    apply (IH opt (S i) _ len F1 O). rewrite !app_length in *. unfold RSIZE, DSIZE. rewrite CL, A1 in L. lia.
Qed.

Lemma many_reads : forall rs s, Forall (fun r : bytes => length r = 128) rs -> recv_many (length rs) (concat rs ++ s) = Some s.
Proof.
  induction rs as [|r rs IH]; intros s F; [reflexivity|]. inversion F; subst. cbn [length recv_many concat].
  rewrite <- app_assoc, (recv_n_app RSIZE) by assumption. apply IH. assumption.
Qed.

(* every documented use, whatever the daemon answers *)
Theorem C59_in_step_partial : forall es c, valid c -> documented c -> in_step es c.
Proof.
  intros es c V D. unfold in_step. rewrite (daemon_first es c V). cbv zeta.
  destruct c as [f rs opt|f rs|f|f res|f p a|f].
  - destruct (e_refused _); [rewrite serve_nil; reflexivity|].
    destruct V as (V1 & V2 & V3 & V4). unfold read_acquire.
    destruct (N.ltb_spec MAX_RESOURCES (h_data (call_hdr (CAcquire f rs opt)))) as [X|X].
    { exfalso. cbn [call_hdr h_data] in X. unfold MAX_RESOURCES in X. lia. }
    cbn [call_hdr h_data payload]. rewrite Nat2N.id.
    pose proof (acq_reads (hd (mkEnv false None) es) rs opt 0 0 (N.of_nat (HSIZE + length (payload (CAcquire f rs opt)))) V4 V3) as A.
    cbv zeta in A. cbn [payload] in A. rewrite Nat2N.id in A. specialize (A ltac:(lia)).
    destruct (acq_res _ _ _ _ _) as [[[[] pos'] s]|]; [|cbn [h_length]; rewrite A, serve_nil; reflexivity|contradiction].
    subst s. rewrite <- (app_nil_r opt) at 1. rewrite (recv_n_app OSIZE) by exact V3. rewrite serve_nil. reflexivity.
  - destruct (e_refused _); [rewrite serve_nil; reflexivity|].
    destruct V as (V1 & V2 & V3). unfold read_release, rel_all, rel_orphan, rel_rename. cbn [documented] in D.
    cbn [call_hdr h_flags h_data payload]. pose proof (many_reads rs [] V2) as M. rewrite app_nil_r in M. rewrite Nat2N.id.
    destruct (N.testbit f 0); [subst rs; rewrite serve_nil; reflexivity|].
    destruct (N.testbit f 2); [rewrite D in M; rewrite M, serve_nil; reflexivity|].
    destruct (N.testbit f 1); [rewrite D in M; rewrite M, serve_nil; reflexivity|].
    rewrite M, serve_nil. reflexivity.
  - destruct (e_refused _); rewrite serve_nil; reflexivity.
  - destruct (e_refused _); [rewrite serve_nil; reflexivity|].
    destruct V as (V1 & V2). cbn [payload]. pose proof (many_reads [res] []) as M. cbn [concat length] in M. rewrite !app_nil_r in M.
    rewrite M by (constructor; auto). rewrite serve_nil. reflexivity.
  - destruct (e_refused _); [rewrite serve_nil; reflexivity|].
    destruct V as (V1 & V2 & V3). cbn [payload]. rewrite (recv_n_app PSIZE) by exact V2.
    rewrite <- (app_nil_r a). rewrite (recv_n_app PSIZE) by exact V3. rewrite serve_nil. reflexivity.
  - rewrite serve_nil. reflexivity.
Qed.

(* releasing everything with resources given too: they are taken for headers, and ignored as such if none
   begins like one *)
Definition not_headers (rs : list bytes) : Prop :=
  Forall (fun r => forall k, k < 4 -> le_dec (get (32 * k) 4 r) <> SM_MAGIC) rs.

Lemma skip_block f es b s : length b = 32 -> le_dec (get 0 4 b) <> SM_MAGIC -> serve (S f) es (b ++ s) = serve f es s.
Proof.
  intros L M. cbn [serve]. destruct (b ++ s) as [|x r] eqn:E; [destruct b; discriminate|]. rewrite <- E.
  rewrite (recv_n_app HSIZE) by exact L. unfold dec_hdr at 1. cbn [h_magic].
  destruct (N.eqb_spec (le_dec (get 0 4 b)) SM_MAGIC); [contradiction|]. reflexivity.
Qed.

Lemma skip_resource f es r s : length r = 128 -> (forall k, k < 4 -> le_dec (get (32 * k) 4 r) <> SM_MAGIC) ->
  serve (S (S (S (S f)))) es (r ++ s) = serve f es s.
Proof.
  intros L M.
  assert (G : forall k, k < 4 -> get 0 4 (get (32 * k) 32 r) = get (32 * k) 4 r).
  { intros k K. unfold get. cbn [skipn]. rewrite firstn_firstn. reflexivity. }
  assert (E : r = get (32 * 0) 32 r ++ get (32 * 1) 32 r ++ get (32 * 2) 32 r ++ get (32 * 3) 32 r).
  { unfold get. rewrite <- (firstn_skipn 32 r) at 1. f_equal.
    rewrite <- (firstn_skipn 32 (skipn 32 r)) at 1. f_equal.
    assert (SS : forall a b (l : bytes), skipn a (skipn b l) = skipn (b + a) l).
    { intros a b. induction b; intros l; [reflexivity|]. destruct l; [destruct a; reflexivity|]. cbn [skipn Nat.add]. apply IHb. }
    rewrite SS. change (32 + 32) with 64. rewrite <- (firstn_skipn 32 (skipn 64 r)) at 1. f_equal.
    rewrite SS. change (64 + 32) with 96. symmetry. apply firstn_all2. rewrite skipn_length, L. lia. }
  rewrite E. rewrite <- !app_assoc.
  rewrite !skip_block; try reflexivity; try (rewrite G by lia; apply M; lia); apply get_length; lia.
Qed.

Theorem C59_release_all_partial : forall es f rs, valid (CRelease f rs) -> N.testbit f 0 = true -> not_headers rs ->
  in_step es (CRelease f rs).
Proof.
  intros es f rs V A NH. unfold in_step. rewrite (daemon_first es _ V). cbv zeta.
  destruct (e_refused _); [rewrite serve_nil; reflexivity|].
  unfold read_release, rel_all. cbn [call_hdr h_flags]. rewrite A.
  assert (S : forall rs k, Forall (fun r : bytes => length r = 128) rs -> not_headers rs -> 4 * length rs <= k ->
             serve k (tl es) (concat rs) = ([], Idle)).
  { induction rs0 as [|r rs0 IH]; intros k F N K; [apply serve_nil|]. inversion F; subst. inversion N; subst. cbn [length concat] in *.
    destruct k as [|[|[|[|k]]]]; try lia. rewrite skip_resource by assumption. apply IH; auto. lia. }
  cbn [payload]. rewrite (S rs); auto; [apply V|]. unfold call_bytes. rewrite app_length, enc_hdr_length. cbn [payload].
  destruct V as (_ & V & _). rewrite (concat_len rs 128 V). unfold HSIZE. lia.
Qed.

(* ---- witnesses ---- *)
(* releasing an orphan without naming it: the worker waits for a resource and the caller for a reply *)
Theorem C59_refuted : ~ C59_statement.
Proof.
  intros H. specialize (H [] (CRelease 4 [])). assert (V : valid (CRelease 4 [])) by (repeat split; auto; reflexivity).
  specialize (H V). vm_compute in H. discriminate.
Qed.

(* releasing everything, and naming a resource of a lockspace whose name is a command: it is executed *)
Definition evil : bytes := enc_hdr (mkHdr SM_MAGIC SM_PROTO CMD_RESTRICT 1 32 0 0 0) ++ repeat 0%N 96.
Theorem C59_name_refuted :
  exists c, valid c /\ (exists f rs, c = CRelease f rs /\ N.testbit f 0 = true) /\ length (fst (daemon [] c)) = 2
    /\ map h_cmd (fst (daemon [] c)) = [8; 10]%N.
Proof.
  exists (CRelease 1 [evil]). split; [repeat split; auto; try reflexivity; repeat constructor; reflexivity|].
  split; [exists 1%N, [evil]; split; reflexivity|]. split; vm_compute; reflexivity.
Qed.

Example C59_nonvacuous :
  exists c es, valid c /\ documented c /\ in_step es c /\ length (call_bytes c) = 32 + 128 + 2 * 1040 + 128 + 1040 + 56
   /\ e_abort (hd (mkEnv false None) es) = Some 1.
Proof.
  pose (r := fun n : N => repeat 1%N 124 ++ le_enc 4 n). pose (d := repeat 2%N 1040).
  exists (CAcquire 0 [mkA (r 2%N) [d; d]; mkA (r 1%N) [d]] (repeat 3%N 56)), [mkEnv false (Some 1)].
  assert (V : valid (CAcquire 0 [mkA (r 2%N) [d; d]; mkA (r 1%N) [d]] (repeat 3%N 56))).
  { split; [reflexivity|]. split; [cbn; lia|]. split; [reflexivity|]. repeat constructor; cbn; lia. }
  split; auto. split; [exact I|]. split; [apply C59_in_step_partial; auto; exact I|]. split; reflexivity.
Qed.

Print Assumptions C59_in_step_partial.
Print Assumptions C59_release_all_partial.
Print Assumptions C59_refuted.
Print Assumptions C59_name_refuted.
