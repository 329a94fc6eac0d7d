(* Commands on a registered connection as a stream of bytes: what the library writes and what
   the daemon reads.
   Client: src/client.c:73-132 (send_header, send_data), 1031-1041 (restrict), 1083-1117 (killpath),
   1118-1206 (acquire), 1208-1281 (inquire), 1283-1325 (convert), 1330-1371 (release).
   Daemon: src/main.c:420-455 (client_recv_all), 1098-1238 (process_cmd_thread_registered),
   1240-1352 (process_connection); src/cmd.c:191-385 (cmd_acquire), 574-698 (cmd_release),
   768-896 (cmd_inquire), 917-938 (cmd_convert), 1972-2027 (cmd_killpath), 2920-2929 (cmd_restrict).
   The library waits for the reply of a command before it sends another one, so the stream holds the
   bytes of one call.  A read with MSG_WAITALL that finds too few bytes waits for ever.
   Not modelled: a client that dies in the middle of a command, RESTRICT_ALL, replies. *)
From Coq Require Import List NArith ZArith Lia Bool Arith.
From Verif Require Import Bytes.
Import ListNotations.
Open Scope nat_scope.

(* src/sanlock_sock.h:15-16, 23-31, 40, 50 *)
Definition SM_MAGIC : N := 0x04282010.
Definition SM_PROTO : N := 1.
Definition CMD_ACQUIRE : N := 7.
Definition CMD_RELEASE : N := 8.
Definition CMD_INQUIRE : N := 9.
Definition CMD_RESTRICT : N := 10.
Definition CMD_KILLPATH : N := 17.
Definition CMD_CONVERT : N := 27.
(* src/sanlock_resource.h:87-89; tested as bits *)
Definition rel_all (f : N) : bool := N.testbit f 0.
Definition rel_rename (f : N) : bool := N.testbit f 1.
Definition rel_orphan (f : N) : bool := N.testbit f 2.
(* sizes of sm_header, sanlk_resource, sanlk_disk, sanlk_options, killpath and killargs *)
Definition HSIZE := 32.
Definition RSIZE := 128.
Definition DSIZE := 1040.
Definition OSIZE := 56.
Definition PSIZE := 128.
Definition MAX_RESOURCES : N := 8.
Definition MAX_DISKS : N := 4.

(* src/sanlock_sock.h:68-77 *)
Record hdr := mkHdr { h_magic : N; h_version : N; h_cmd : N; h_flags : N; h_length : N; h_seq : N; h_data : N; h_data2 : N }.
Definition enc_hdr (h : hdr) : bytes :=
  le_enc 4 (h_magic h) ++ le_enc 4 (h_version h) ++ le_enc 4 (h_cmd h) ++ le_enc 4 (h_flags h)
  ++ le_enc 4 (h_length h) ++ le_enc 4 (h_seq h) ++ le_enc 4 (h_data h) ++ le_enc 4 (h_data2 h).
Definition dec_hdr (b : bytes) : hdr :=
  mkHdr (le_dec (get 0 4 b)) (le_dec (get 4 4 b)) (le_dec (get 8 4 b)) (le_dec (get 12 4 b))
        (le_dec (get 16 4 b)) (le_dec (get 20 4 b)) (le_dec (get 24 4 b)) (le_dec (get 28 4 b)).

(* ---------------- library ---------------- *)
(* a resource given to acquire: struct sanlk_resource and the disks behind it *)
Record ares := mkA { a_res : bytes; a_disks : list bytes }.
(* src/sanlock.h:98-109: num_disks is the last member *)
Definition num_disks (res : bytes) : N := le_dec (get 124 4 res).

Inductive call :=
| CAcquire (flags : N) (rs : list ares) (opt : bytes)
| CRelease (flags : N) (rs : list bytes)
| CInquire (flags : N)
| CConvert (flags : N) (res : bytes)
| CKillpath (flags : N) (path args : bytes)
| CRestrict (flags : N).

Definition payload (c : call) : bytes :=
  match c with
  | CAcquire _ rs opt => concat (map (fun a => a_res a ++ concat (a_disks a)) rs) ++ opt
  | CRelease _ rs => concat rs
  | CInquire _ => []
  | CConvert _ res => res
  | CKillpath _ p a => p ++ a
  | CRestrict _ => []
  end.

(* send_header: cmd, flags, length, data; data2 is -1, "this registered client" *)
Definition call_hdr (c : call) : hdr :=
  let h cmd flags data := mkHdr SM_MAGIC SM_PROTO cmd flags (N.of_nat (HSIZE + length (payload c))) 0 data (2 ^ 32 - 1) in
  match c with
  | CAcquire f rs _ => h CMD_ACQUIRE f (N.of_nat (length rs))
  | CRelease f rs => h CMD_RELEASE f (N.of_nat (length rs))
  | CInquire f => h CMD_INQUIRE f 0%N
  | CConvert f _ => h CMD_CONVERT f 0%N
  | CKillpath f _ _ => h CMD_KILLPATH f 0%N
  | CRestrict f => h CMD_RESTRICT f 0%N
  end.

Definition call_bytes (c : call) : bytes := enc_hdr (call_hdr c) ++ payload c.

(* ---------------- daemon ---------------- *)
(* recv_loop with MSG_WAITALL; None: waits for ever *)
Definition recv_n (n : nat) (s : bytes) : option (bytes * bytes) :=
  if length s <? n then None else Some (firstn n s, skipn n s).

(* src/main.c:432-451: 64 bytes at a time, until nothing is left or [rem] were read *)
Fixpoint trash (fuel : nat) (rem total : nat) (s : bytes) : bytes :=
  match fuel with
  | O => s
  | S f => match s with
           | [] => []
           | _ => let n := Nat.min 64 (length s) in
                  if rem <=? total + n then skipn n s else trash f rem (total + n) (skipn n s)
           end
  end.
(* src/main.c:422-455 *)
Definition recv_all (len : N) (pos : nat) (s : bytes) : bytes :=
  let rem := (Z.of_N len - Z.of_nat HSIZE - Z.of_nat pos)%Z in
  if (rem =? 0)%Z then s else trash (length s) (Z.to_nat rem) 0 s.

(* what the daemon's state adds to a command: refused before it is started (src/main.c:1098-1222), or,
   for an acquire, given up before resource k is read (src/cmd.c:222-270 for k = 0; 304-308) *)
Record env := mkEnv { e_refused : bool; e_abort : option nat }.

(* src/cmd.c:276-349: read the resources; the result is whether all were read, the position and the rest *)
Fixpoint acq_res (n : nat) (i : nat) (e : env) (pos : nat) (s : bytes) : option (bool * nat * bytes) :=
  match n with
  | O => Some (true, pos, s)
  | S n' =>
      if match e_abort e with Some k => k =? i | None => false end then Some (false, pos, s)
      else match recv_n RSIZE s with
           | None => None
           | Some (res, s1) =>
               if (num_disks res =? 0)%N || (MAX_DISKS <? num_disks res)%N then Some (false, pos + RSIZE, s1)
               else match recv_n (N.to_nat (num_disks res) * DSIZE) s1 with
                    | None => None
                    | Some (_, s2) => acq_res n' (S i) e (pos + RSIZE + N.to_nat (num_disks res) * DSIZE) s2
                    end
           end
  end.

(* src/cmd.c:191-385, 567-568 *)
Definition read_acquire (h : hdr) (e : env) (s : bytes) : option bytes :=
  if (MAX_RESOURCES <? h_data h)%N then Some (recv_all (h_length h) 0 s)
  else match acq_res (N.to_nat (h_data h)) 0 e 0 s with
       | None => None
       | Some (false, pos, s1) => Some (recv_all (h_length h) pos s1)
       | Some (true, pos, s1) =>
           match recv_n OSIZE s1 with None => None | Some (_, s2) => Some s2 end
       end.

Fixpoint recv_many (n : nat) (s : bytes) : option bytes :=
  match n with O => Some s | S k => match recv_n RSIZE s with None => None | Some (_, s1) => recv_many k s1 end end.

(* src/cmd.c:597-698 *)
Definition read_release (h : hdr) (s : bytes) : option bytes :=
  if rel_all (h_flags h) then Some s
  else if rel_orphan (h_flags h) then recv_many 1 s
  else if rel_rename (h_flags h) then recv_many 2 s
  else recv_many (N.to_nat (h_data h)) s.

Inductive status := Idle | Partial | Waiting | Other.

(* src/main.c:1240-1352: the commands executed and what the daemon does when the bytes are used up:
   Partial: the main loop waits for the rest of a header; Waiting: a worker waits for more data;
   Other: a command other than those of the calls above was found *)
Fixpoint serve (fuel : nat) (es : list env) (s : bytes) : list hdr * status :=
  match fuel with
  | O => ([], Idle)
  | S f =>
      match s with
      | [] => ([], Idle)
      | _ =>
          match recv_n HSIZE s with
          | None => ([], Partial)
          | Some (hb, s1) =>
              let h := dec_hdr hb in
              let e := hd (mkEnv false None) es in
              let go o := match o with
                          | None => ([h], Waiting)
                          | Some s2 => let (l, st) := serve f (tl es) s2 in (h :: l, st)
                          end in
              if negb (h_magic h =? SM_MAGIC)%N then serve f es s1
              else if (SM_PROTO / 65536 <? h_version h / 65536)%N then serve f es s1
              else if (h_cmd h =? CMD_RESTRICT)%N then go (Some s1)
              else if negb ((h_cmd h =? CMD_ACQUIRE)%N || (h_cmd h =? CMD_RELEASE)%N || (h_cmd h =? CMD_INQUIRE)%N
                            || (h_cmd h =? CMD_CONVERT)%N || (h_cmd h =? CMD_KILLPATH)%N) then ([h], Other)
              else if e_refused e then go (Some (recv_all (h_length h) 0 s1))
              else if (h_cmd h =? CMD_ACQUIRE)%N then go (read_acquire h e s1)
              else if (h_cmd h =? CMD_RELEASE)%N then go (read_release h s1)
              else if (h_cmd h =? CMD_CONVERT)%N then go (recv_many 1 s1)
              else if (h_cmd h =? CMD_KILLPATH)%N then
                go (match recv_n PSIZE s1 with None => None
                    | Some (_, s2) => match recv_n PSIZE s2 with None => None | Some (_, s3) => Some s3 end end)
              else go (Some s1)
          end
      end
  end.

(* the daemon given the bytes of one call *)
Definition daemon (es : list env) (c : call) : list hdr * status :=
  serve (S (length (call_bytes c))) es (call_bytes c).

(* ---------------- proofs ---------------- *)
Lemma enc_hdr_length h : length (enc_hdr h) = HSIZE.
Proof. unfold enc_hdr. rewrite !app_length, !le_enc_length. reflexivity. Qed.

Lemma recv_n_app n a s : length a = n -> recv_n n (a ++ s) = Some (a, s).
Proof.
  intros H. unfold recv_n. rewrite app_length. destruct (Nat.ltb_spec (length a + length s) n); [lia|].
  rewrite firstn_app, skipn_app, H, Nat.sub_diag, firstn_O, app_nil_r, <- H, firstn_all, skipn_all. reflexivity.
Qed.

Lemma get_cons n x a off : get (S off) n (x :: a) = get off n a.
Proof. reflexivity. Qed.

Definition hdr_wf (h : hdr) : Prop :=
  (h_magic h < 2 ^ 32 /\ h_version h < 2 ^ 32 /\ h_cmd h < 2 ^ 32 /\ h_flags h < 2 ^ 32 /\ h_length h < 2 ^ 32
   /\ h_seq h < 2 ^ 32 /\ h_data h < 2 ^ 32 /\ h_data2 h < 2 ^ 32)%N.

Lemma dec_enc_hdr h : hdr_wf h -> dec_hdr (enc_hdr h) = h.
Proof.
  intros (A1 & A2 & A3 & A4 & A5 & A6 & A7 & A8). destruct h. unfold dec_hdr, enc_hdr.
  cbn [h_magic h_version h_cmd h_flags h_length h_seq h_data h_data2] in *.
  assert (G : forall v s, get 0 4 (le_enc 4 v ++ s) = le_enc 4 v) by reflexivity.
  assert (K : forall v s off, get (4 + off) 4 (le_enc 4 v ++ s) = get off 4 s) by reflexivity.
  assert (L : forall v, get 0 4 (le_enc 4 v) = le_enc 4 v) by reflexivity.
  f_equal.
  - rewrite G. apply le_dec_enc_small. assumption.
  - change 4 with (4 + 0) at 1. rewrite K, G. apply le_dec_enc_small. assumption.
  - change 8 with (4 + (4 + 0)). rewrite !K, G. apply le_dec_enc_small. assumption.
  - change 12 with (4 + (4 + (4 + 0))). rewrite !K, G. apply le_dec_enc_small. assumption.
  - change 16 with (4 + (4 + (4 + (4 + 0)))). rewrite !K, G. apply le_dec_enc_small. assumption.
  - change 20 with (4 + (4 + (4 + (4 + (4 + 0))))). rewrite !K, G. apply le_dec_enc_small. assumption.
  - change 24 with (4 + (4 + (4 + (4 + (4 + (4 + 0)))))). rewrite !K, G. apply le_dec_enc_small. assumption.
  - change 28 with (4 + (4 + (4 + (4 + (4 + (4 + (4 + 0))))))). rewrite !K, L. apply le_dec_enc_small. assumption.
Qed.

Lemma trash_all : forall fuel rem total s, length s <= fuel -> total + length s <= rem -> trash fuel rem total s = [].
Proof.
  induction fuel; intros rem total s L R; cbn [trash]; [destruct s; auto; cbn in L; lia|].
  destruct s as [|x s]; auto. set (n := Nat.min 64 (length (x :: s))).
  assert (1 <= n <= length (x :: s)) by (unfold n; cbn [length]; lia).
  destruct (Nat.leb_spec rem (total + n)).
  - apply skipn_all2. lia.
  - apply IHfuel; rewrite skipn_length; lia.
Qed.

(* everything that is left of the call is thrown away *)
Lemma recv_all_call len pos s : N.to_nat len = HSIZE + pos + length s -> recv_all len pos s = [].
Proof.
  intros H. unfold recv_all. destruct (Z.eqb_spec (Z.of_N len - Z.of_nat HSIZE - Z.of_nat pos) 0) as [E|E].
  - destruct s; auto. cbn [length] in H. lia.
  - apply trash_all; lia.
Qed.
