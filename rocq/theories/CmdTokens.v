(* cmd_acquire and cmd_release on a client's token array: src/cmd.c:92-154, 191-572,
   574-700.  The disk operations (acquire_token, release_token), the messages and the
   allocations are inputs; what happens to the tokens is computed. *)
From Coq Require Import List Arith ZArith Lia Bool.
Import ListNotations.

Definition SANLK_MAX_RESOURCES : nat := 8.        (* src/sanlock.h *)
Definition tok := nat.
Definition slots := list (option tok).            (* cl->tokens[tokens_slots] *)

Definition empty_slots (s : slots) : nat := length (filter (fun x => match x with None => true | _ => false end) s).
Definition held (s : slots) : list tok := flat_map (fun x => match x with Some t => [t] | None => [] end) s.

(* error codes *)
Definition E2BIG : Z := 7.
Definition ESTALE : Z := 116.
Definition ENOMEM : Z := 12.
Definition ENOENT : Z := 2.
Definition ENOTCONN : Z := 107.
Definition ERANGE : Z := 34.
Definition ENOSPC : Z := 28.
Definition ENOTTY : Z := 25.

(* 287-352: one iteration of the receive loop *)
Inductive rcv := RcvOk (t : tok) | RcvShort | RcvRange | RcvNoMem | RcvShortDisks.
Definition rcv_err (r : rcv) : Z :=
  match r with RcvOk _ => 0 | RcvShort | RcvShortDisks => - ENOTCONN | RcvRange => - ERANGE | RcvNoMem => - ENOMEM end%Z.
(* new_tokens allocated, and the result *)
Fixpoint recv_loop (n : nat) (msgs : list rcv) : list tok * Z :=
  match n, msgs with
  | O, _ => ([], 0%Z)
  | S _, [] => ([], (- ENOTCONN)%Z)
  | S m, RcvOk t :: r => let '(l, z) := recv_loop m r in (t :: l, z)
  | S _, r :: _ => ([], rcv_err r)
  end.

(* 398-418: lockspace_info for each *)
Fixpoint info_loop (new : list tok) (info : tok -> bool) : Z :=
  match new with [] => 0%Z | t :: r => if info t then info_loop r info else (- ENOSPC)%Z end.

(* 420-457: acquire_token for each; the tokens obtained and the result *)
Fixpoint acquire_loop (new : list tok) (rv : tok -> Z) : list tok * Z :=
  match new with
  | [] => ([], 0%Z)
  | t :: r => if (rv t <? 0)%Z then ([], rv t) else let '(l, z) := acquire_loop r rv in (t :: l, z)
  end.

(* 530-538 *)
Fixpoint put_slot (s : slots) (t : tok) : slots :=
  match s with [] => [] | None :: r => Some t :: r | x :: r => x :: put_slot r t end.
Definition put_all (s : slots) (new : list tok) : slots := fold_left put_slot new s.

(* everything from outside a call of cmd_acquire sees *)
Record acq_in := mkAcqIn {
  ai_count : nat;            (* header.data; a negative count behaves as 0 *)
  ai_dead0 : bool;           (* pid_dead at the first check *)
  ai_grow : bool;            (* malloc for a larger array succeeds *)
  ai_msgs : list rcv; ai_opt : bool;
  ai_info : tok -> bool; ai_rv : tok -> Z;
  ai_dead1 : bool;           (* pid_dead at the end *)
  ai_space : tok -> bool }.  (* _lockspace_info at the end: there, not failed, same host id *)
(* what it did *)
Record acq_out := mkAcqOut {
  ao_result : Z;             (* as sent to the caller *)
  ao_slots : slots;          (* cl->tokens afterwards *)
  ao_released : list tok;    (* release_token calls *)
  ao_freed : list tok;       (* free(token) *)
  ao_client_free : bool }.

(* 231-268; None: ENOMEM *)
Definition grow (a : acq_in) (s : slots) : option slots :=
  if Nat.ltb (empty_slots s) (ai_count a)
  then if ai_grow a then Some (s ++ repeat None (SANLK_MAX_RESOURCES * 2)) else None
  else Some s.

(* up to "done:": new_tokens allocated, those acquired, the result, and the array *)
Definition acquire_body (a : acq_in) (s : slots) : list tok * list tok * Z * slots :=
  if Nat.ltb SANLK_MAX_RESOURCES (ai_count a) then ([], [], - E2BIG, s)%Z
  else if ai_dead0 a then ([], [], - ESTALE, s)%Z
  else match grow a s with
  | None => ([], [], - ENOMEM, s)%Z
  | Some s1 =>
    if Nat.ltb (empty_slots s1) (ai_count a) then ([], [], - ENOENT, s1)%Z
    else
      let '(new, r1) := recv_loop (ai_count a) (ai_msgs a) in
      if negb (r1 =? 0)%Z then (new, [], r1, s1)
      else if negb (ai_opt a) then (new, [], (- ENOTCONN)%Z, s1)
      else
        let r2 := info_loop new (ai_info a) in
        if negb (r2 =? 0)%Z then (new, [], r2, s1)
        else let '(got, r3) := acquire_loop new (ai_rv a) in (new, got, r3, s1)
  end.

(* 120-154 *)
Definition check_new_tokens_space (s : slots) (count : nat) (new : list tok) (space : tok -> bool) : Z :=
  if Nat.ltb (empty_slots s) count then (- ENOENT)%Z
  else if forallb space new then 0%Z else (- ENOSPC)%Z.

(* 502-571 *)
Definition cmd_acquire (a : acq_in) (s : slots) : acq_out :=
  let '(new, got, r, s1) := acquire_body a s in
  let dead := ai_dead1 a in
  let r' := if (r =? 0)%Z && negb dead
            then (if (check_new_tokens_space s1 (ai_count a) new (ai_space a) =? 0)%Z then 0%Z else (- ENOSPC)%Z)
            else r in
  if (r' =? 0)%Z && negb dead then mkAcqOut 0 (put_all s1 new) [] [] false
  else
    let released_new := got in
    if dead
    then mkAcqOut (if (r' =? 0)%Z then (- ENOTTY)%Z else r') [] (released_new ++ held s1) (new ++ held s1) true
    else mkAcqOut r' s1 released_new new false.

(* ---------------- cmd_release ---------------- *)
(* SANLK_REL_ALL, 598-609: rem_tokens has SANLK_MAX_RESOURCES entries; None is a
   store behind it *)
Fixpoint rel_all (s : slots) (rem : list tok) : option (slots * list tok) :=
  match s with
  | [] => Some ([], rem)
  | None :: r => match rel_all r rem with Some (s', l) => Some (None :: s', l) | None => None end
  | Some t :: r =>
    if Nat.ltb (length rem) SANLK_MAX_RESOURCES
    then match rel_all r (rem ++ [t]) with Some (s', l) => Some (None :: s', l) | None => None end
    else None
  end.
Definition release_all (s : slots) : option (slots * list tok) := rel_all s [].

(* 670-708: one named resource; [same t]: token t has the received names *)
Fixpoint take_first (s : slots) (same : tok -> bool) : option (slots * tok) :=
  match s with
  | [] => None
  | Some t :: r => if same t then Some (None :: r, t)
                   else match take_first r same with Some (s', x) => Some (Some t :: s', x) | None => None end
  | None :: r => match take_first r same with Some (s', x) => Some (None :: s', x) | None => None end
  end.
Fixpoint rel_named (s : slots) (reqs : list (tok -> bool)) (rem : list tok) : option (slots * list tok) :=
  match reqs with
  | [] => Some (s, rem)
  | same :: r =>
    match take_first s same with
    | None => rel_named s r rem
    | Some (s', t) => if Nat.ltb (length rem) SANLK_MAX_RESOURCES then rel_named s' r (rem ++ [t]) else None
    end
  end.
