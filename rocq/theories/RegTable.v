(* sanlk-resetd: the table of watched lockspaces and the messages of sanlk-reset that change it.
   reset/sanlk_resetd.c:254-302 (find_ls, register_ls, unregister_ls), 304-322 and 396-404 (what
   get_events does to the table), 474-541 (process_update), 627-634 and 680-687 (start), 689-731
   (the loop); reset/sanlk_reset.c:605-632 (update_local_daemon); sanlock_end_event,
   src/client.c:851-894.
   What a reset event causes is in Resetd.v.  Results of strdup, sanlock_reg_event and of reading
   events are inputs; a descriptor is a number; messages are left out. *)
From Coq Require Import List String Ascii NArith ZArith Bool Arith Lia.
Import ListNotations.
Open Scope string_scope.
Open Scope list_scope.
Open Scope nat_scope.

Definition MAX_LS := 64.
(* ls_names[i], ls_fd[i] (None: -1), pollfd[i].fd, pollfd[i].revents: POLLIN, and POLLERR,
   POLLHUP or POLLNVAL *)
Record slot := mkSlot { nm : option string; fd : option N; pfd : option N; pin : bool; phup : bool }.
Definition table := nat -> slot.
Definition put (T : table) (i : nat) (s : slot) : table := fun j => if Nat.eqb j i then s else T j.
Definition empty_slot := mkSlot None None None false false.

(* calls of the library: sanlock_reg_event, sanlock_end_event *)
Inductive act := AReg (n : string) (r : option N) | AEnd (c : option N) (n : option string).

(* 254-267 *)
Definition find_ls (T : table) (n : string) : option nat :=
  find (fun i => match nm (T i) with Some m => String.eqb n m | None => false end) (seq 0 MAX_LS).
Definition find_free (T : table) : option nat := find (fun i => match nm (T i) with None => true | Some _ => false end) (seq 0 MAX_LS).

(* 269-290 behind strdup; revents is not touched *)
Definition register (T : table) (i : nat) (n : string) (dup_ok : bool) (r : option N) : table * list act :=
  let s := T i in
  if negb dup_ok then (put T i (mkSlot None (fd s) (pfd s) (pin s) (phup s)), [])
  else match r with
  | None => (put T i (mkSlot None (fd s) (pfd s) (pin s) (phup s)), [AReg n None])
  | Some c => (put T i (mkSlot (Some n) (Some c) (Some c) (pin s) (phup s)), [AReg n (Some c)])
  end.
(* 292-302; ls_count-- *)
Definition unreg (s : slot) : slot := mkSlot None None None (pin s) (phup s).
Definition end_act (s : slot) : act := AEnd (fd s) (nm s).

(* sscanf "%s %s" on a text of at most 255 bytes: two words *)
Definition space (c : ascii) : bool := let n := nat_of_ascii c in (n =? 32) || ((9 <=? n) && (n <=? 13)).
Fixpoint skip (s : string) : string := match s with String c r => if space c then skip r else s | EmptyString => s end.
Fixpoint word (s : string) : string * string :=
  match s with
  | String c r => if space c then (EmptyString, s) else let (w, t) := word r in (String c w, t)
  | EmptyString => (EmptyString, s)
  end.
Definition parse (s : string) : option (string * string) :=
  let (a, r) := word (skip s) in
  match a with EmptyString => None | _ =>
    let (b, _) := word (skip r) in match b with EmptyString => None | _ => Some (a, b) end end.
(* sanlk_reset.c:617-620: snprintf into 256 bytes *)
Definition message (cmd name : string) : string := substring 0 255 (cmd ++ " " ++ name)%string.

(* 474-541 *)
Definition clear_all (T : table) : table := fun i => match nm (T i) with Some _ => if i <? MAX_LS then unreg (T i) else T i | None => T i end.
Definition clear_acts (T : table) : list act := flat_map (fun i => match nm (T i) with Some _ => [end_act (T i)] | None => [] end) (seq 0 MAX_LS).
Definition update (T : table) (msg : string) (dup_ok : bool) (r : option N) : table * list act :=
  match parse msg with
  | None => (T, [])
  | Some (cmd, n) =>
      if (cmd =? "reg")%string then
        match find_ls T n with
        | Some i => let (T', a) := register (put T i (unreg (T i))) i n dup_ok r in (T', end_act (T i) :: a)
        | None => match find_free T with Some i => register T i n dup_ok r | None => (T, []) end
        end
      else if (cmd =? "end")%string then
        match find_ls T n with Some i => (put T i (unreg (T i)), [end_act (T i)]) | None => (T, []) end
      else if (cmd =? "clear")%string then (clear_all T, clear_acts T)
      else (T, [])
  end.

(* get_events: no event or only ones that need no answer; an error; an answer was sent, the
   lockspace is no longer polled *)
Inductive gev := GNone | GErr | GDone.
(* 713-725, one slot *)
Definition visit (g : gev) (s : slot) : slot * list act :=
  let '(s1, a1) :=
    if pin s then match g with
      | GNone => (s, [])
      | GErr => (unreg s, [end_act s])
      | GDone => (mkSlot (nm s) (fd s) None (pin s) (phup s), [])
      end
    else (s, []) in
  if phup s1 then (unreg s1, a1 ++ [end_act s1]) else (s1, a1).

(* one pass of 689-731: poll says nothing of a slot whose descriptor is -1 *)
Record round := mkRound { rev : nat -> bool * bool; msg : option string; dup_ok : bool; regr : option N; gevs : nat -> gev }.
Definition polled (rv : nat -> bool * bool) (T : table) : table :=
  fun i => let s := T i in match pfd s with
    | Some _ => mkSlot (nm s) (fd s) (pfd s) (fst (rv i)) (snd (rv i))
    | None => mkSlot (nm s) (fd s) (pfd s) false false end.
Definition visits (g : nat -> gev) (T : table) : table := fun i => if i <? MAX_LS then fst (visit (g i) (T i)) else T i.
Definition visit_acts (g : nat -> gev) (T : table) : list act := flat_map (fun i => snd (visit (g i) (T i))) (seq 0 MAX_LS).
Definition pass (T : table) (r : round) : table * list act :=
  let T1 := polled (rev r) T in
  let '(T2, a) := match msg r with Some m => update T1 m (dup_ok r) (regr r) | None => (T1, []) end in
  (visits (gevs r) T2, a ++ visit_acts (gevs r) T2).
Fixpoint passes (T : table) (l : list round) : table * list act :=
  match l with [] => (T, []) | r :: l => let (T1, a) := pass T r in let (T2, b) := passes T1 l in (T2, a ++ b) end.

(* start: the names of the command line, at most MAX_LS *)
Fixpoint start_from (i : nat) (T : table) (l : list (string * bool * option N)) : table * list act :=
  match l with
  | [] => (T, [])
  | (n, d, r) :: l => if i <? MAX_LS then let (T1, a) := register T i n d r in let (T2, b) := start_from (S i) T1 l in (T2, a ++ b) else (T, [])
  end.
Definition start := start_from 0 (fun _ => empty_slot).

(* ls_count, 286 and 301 *)
Definition delta (a : act) : Z := match a with AReg _ (Some _) => 1 | AReg _ None => 0 | AEnd _ _ => -1 end%Z.
Definition ls_count (l : list act) : Z := fold_right (fun a n => delta a + n)%Z 0%Z l.
