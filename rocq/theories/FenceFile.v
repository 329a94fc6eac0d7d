(* fence_sanlockd looks for the agent that runs on its host: fence_sanlock/fence_sanlockd.c:414-504
   (check_fence_agent); the file is written by fence_sanlock/fence_sanlock.in:259-261.
   A directory is the list of its entries as readdir gives them; a file is its text, None when fopen fails.
   What the daemon makes of the result is in FenceD.v. *)
From Coq Require Import List String Ascii NArith ZArith Bool Arith Lia.
From Verif Require Import RegTable.
Import ListNotations.
Open Scope string_scope.
Open Scope list_scope.
Open Scope Z_scope.

Definition code (c : ascii) : Z := Z.of_nat (nat_of_ascii c).
Definition digit (c : ascii) : bool := (48 <=? code c) && (code c <=? 57).
(* the digits at the front: their value, how many, the rest *)
Fixpoint run (s : string) (a : Z) (n : nat) : Z * nat * string :=
  match s with String c r => if digit c then run r (a * 10 + (code c - 48)) (S n) else (a, n, s) | EmptyString => (a, n, s) end.
(* %d: strtol, cut to int *)
Definition cut_int (z : Z) : Z := let z := Z.max (- 2 ^ 63) (Z.min (2 ^ 63 - 1) z) in (z + 2 ^ 31) mod 2 ^ 32 - 2 ^ 31.
Definition scan_d (s : string) : option (Z * string) :=
  match skip s with
  | EmptyString => None
  | String c r =>
      let neg := Nat.eqb (nat_of_ascii c) 45 in
      let t := if neg || Nat.eqb (nat_of_ascii c) 43 then r else String c r in
      let '(v, n, u) := run t 0 0 in
      if Nat.eqb n 0 then None else Some (cut_int (if neg then - v else v), u)
  end.
Fixpoint strip (p s : string) : option string :=
  match p, s with EmptyString, _ => Some s | String a p, String b s => if Ascii.eqb a b then strip p s else None | _, EmptyString => None end.
Fixpoint to_nl (s : string) : string := match s with String c r => if Nat.eqb (nat_of_ascii c) 10 then EmptyString else String c (to_nl r) | EmptyString => EmptyString end.

(* 465-470: rv 3, or less; rest has 512 bytes *)
Inductive sc := ScOver | ScNo | Sc (pid victim : Z).
Definition scan_file (s : string) : sc :=
  match scan_d s with
  | None => ScNo
  | Some (pid, s) =>
  match strip "host_id" (skip s) with
  | None => ScNo
  | Some s =>
  match scan_d s with
  | None => ScNo
  | Some (victim, s) =>
      let rest := to_nl (skip s) in
      if (rest =? "")%string then ScNo else if Nat.leb 512 (String.length rest) then ScOver else Sc pid victim
  end end end.

Definition PREFIX := "fence_sanlock.pid.".
Definition starts (p s : string) : bool := match strip p s with Some _ => true | None => false end.
(* 478-490; %s skips white space and takes a word; name has room for any comm (at most 15 characters) *)
Definition is_agent (comm : option string) : bool :=
  match comm with Some c => let (w, _) := word (skip c) in negb (w =? "")%string && starts "fence_sanlock" w | None => false end.

Inductive found := Over | Error | Found (victim : Z).
Definition entry := (string * option string)%type.
(* 429-500; the test at 430 is part of that at 433 *)
Fixpoint check_agent (proc : Z -> option string) (l : list entry) : found :=
  match l with
  | [] => Error
  | (name, text) :: l =>
      if negb (starts PREFIX name) then check_agent proc l
      else match text with
      | None => check_agent proc l
      | Some t => match scan_file t with
        | ScOver => Over
        | ScNo => check_agent proc l
        | Sc pid victim =>
            if (pid =? 0) || (victim =? 0) then check_agent proc l
            else if is_agent (proc pid) then Found victim
            else check_agent proc l
        end
      end
  end.
(* 425-427 *)
Definition check_fence_agent (proc : Z -> option string) (dir : option (list entry)) : found :=
  match dir with None => Error | Some l => check_agent proc l end.

(* fence_sanlock.in:259-261; numbers as the script has them *)
Definition NL := String (ascii_of_nat 10) "".
Definition agent_file (pid host gen ver ts : string) : entry :=
  ((PREFIX ++ pid)%string, Some (pid ++ " host_id " ++ host ++ " gen " ++ gen ++ " ver " ++ ver ++ " timestamp " ++ ts ++ NL)%string).
