(* The program run for a process that has to give up its leases: path and
   arguments from sanlock_killpath to execvp.
   src/client.c:1083-1117 sanlock_killpath, src/cmd.c:1985-2006 cmd_killpath,
   src/main.c:139-147 send_helper_kill, src/helper.c:39-108 run_path.
   A C string is the list of its characters, none of them 0; an access outside
   of a buffer is a separate outcome.  Simplified: strdup does not fail; white
   space, alnum and punct are those of the C locale. *)
From Coq Require Import List NArith ZArith Lia Bool Arith.
From Verif Require Import Bytes Strings.
Import ListNotations.
Open Scope N_scope.

(* src/sanlock.h SANLK_HELPER_PATH_LEN, SANLK_HELPER_ARGS_LEN; src/helper.c:37 *)
Definition KLEN : nat := 128.
Definition MAX_AV_COUNT : nat := 8.

(* isalnum or ispunct *)
Definition is_graph (c : N) : bool := (33 <=? c) && (c <=? 126).

(* src/client.c:1091-1095: a zeroed buffer, snprintf with one byte less *)
Definition send_buf (s : bytes) : bytes :=
  let t := firstn (KLEN - 2) s in t ++ repeat 0 (KLEN - length t).

(* src/cmd.c:2005-2006 *)
Definition terminate (b : bytes) : bytes := firstn (KLEN - 1) b ++ [0].

(* the string in a buffer; None: there is no end *)
Fixpoint cstr (b : bytes) : option bytes :=
  match b with
  | [] => None
  | c :: r => if c =? 0 then Some [] else match cstr r with None => None | Some s => Some (c :: s) end
  end.

(* src/helper.c:61-100: av and arg at the end of the loop; None: an access outside
   of av or arg.  arg[arg_len++] = c; arg is zero behind, so strdup(arg) needs one
   byte more *)
Definition put (arg : bytes) (c : N) : option bytes :=
  if Nat.ltb (length arg) KLEN then Some (arg ++ [c]) else None.
Definition add_av (av : list bytes) (arg : bytes) : option (list bytes) :=
  if Nat.ltb (length arg) KLEN && Nat.ltb (length av) (MAX_AV_COUNT + 1) then Some (av ++ [arg]) else None.

Fixpoint scan (s : bytes) (av : list bytes) (arg : bytes) : option (list bytes * bytes) :=
  match s with
  | [] => Some (av, arg)
  | c :: r =>
      if Nat.eqb (length av) MAX_AV_COUNT then Some (av, arg)
      else if c =? BS then
        match r with
        | [] => Some (av, arg)
        | d :: r' => if (d =? BS) || is_space d
                     then match put arg d with None => None | Some arg' => scan r' av arg' end
                     else Some (av, arg)
        end
      else if is_graph c then match put arg c with None => None | Some arg' => scan r av arg' end
      else if is_space c then
        if Nat.eqb (length arg) 0 then scan r av []
        else match add_av av arg with None => None | Some av' => scan r av' [] end
      else Some (av, arg)
  end.

(* snprintf "%d" of a process id *)
Definition pid_str (pid : N) : bytes := print_llu pid.

(* src/helper.c:39-108: the argument vector given to execvp, without its NULL;
   None: undefined *)
Definition run_path (path args : bytes) (pid : N) : option (list bytes) :=
  match cstr path with
  | None => None
  | Some p =>
      match (if nth 0 args 0 =? 0 then Some ([p], [])
             else match cstr (terminate args) with None => None | Some s => scan s [p] [] end) with
      | None => None
      | Some (av, arg) =>
          match (if Nat.ltb (length av) MAX_AV_COUNT && negb (Nat.eqb (length arg) 0) then add_av av arg else Some av) with
          | None => None
          | Some av1 =>
              let av2 := if Nat.ltb (length av1) MAX_AV_COUNT && negb (pid =? 0) then add_av av1 (pid_str pid) else Some av1 in
              (* the last element of av has to be NULL *)
              match av2 with
              | Some l => if Nat.leb (length l) MAX_AV_COUNT then Some l else None
              | None => None
              end
          end
      end
  end.

(* from the call to execvp; src/main.c:146: the pid only if the client asked for it *)
Definition kill_argv (path args : bytes) (with_pid : bool) (pid : N) : option (list bytes) :=
  run_path (terminate (send_buf path)) (terminate (send_buf args)) (if with_pid then pid else 0).
