(* Lockspace strings and the offsets of the command line.
   src/client.c:2253-2303 sanlock_str_to_lockspace,
   src/main.c:1945-2001 parse_arg_lockspace, 2005-2082 parse_arg_resource.
   A C string is the list of its characters, none of them 0. *)
From Coq Require Import List NArith ZArith Lia Bool Arith ZifyBool ZifyN ZifyNat.
From Verif Require Import Bytes Strings.
Import ListNotations.
Open Scope N_scope.

(* ---------------- sanlock_str_to_lockspace ---------------- *)
(* 2263-2291: cut at the first n colons that are not escaped *)
Fixpoint cut_colons (n : nat) (s cur : bytes) : list bytes :=
  match s with
  | [] => [cur]
  | c :: r =>
      if c =? BS then match r with [] => [cur ++ [c]] | d :: r' => cut_colons n r' (cur ++ [c; d]) end
      else match n with
           | S k => if c =? CO then cur :: cut_colons k r [] else cut_colons n r (cur ++ [c])
           | O => cut_colons n r (cur ++ [c])
           end
  end.

(* atoll: white space, sign, decimal digits; a value that does not fit is taken to become the largest or
   smallest one, as with strtoll *)
Definition clamp_ll (v : Z) : Z := Z.max (- 2 ^ 63) (Z.min (2 ^ 63 - 1) v).
Definition atoll (s : bytes) : Z :=
  let '(neg, t) := split_sign (skip_space s) in
  let v := Z.of_N (digits 10 t 0) in clamp_ll (if neg then - v else v).
(* to uint64_t *)
Definition u64 (z : Z) : N := Z.to_N (z mod 2 ^ 64).

(* struct sanlk_lockspace; None: the member is left as it was *)
Record sls := mkSls { sl_name : bytes; sl_host_id : option N; sl_path : option bytes; sl_offset : option N }.
Definition str_to_lockspace (s : bytes) : sls :=
  let p := cut_colons 3 s [] in
  mkSls (firstn SANLK_NAME_LEN (nth 0 p []))
        (option_map (fun x => u64 (atoll x)) (nth_error p 1))
        (option_map (fun x => upto_nul (fst (path_import_w SANLK_PATH_LEN x 0))) (nth_error p 2))
        (option_map (fun x => u64 (atoll x)) (nth_error p 3)).

(* ---------------- command line ---------------- *)
Definition CH_M : N := 77.
(* strchr: what is before and behind the first c *)
Fixpoint strchr (c : N) (s : bytes) : option (bytes * bytes) :=
  match s with
  | [] => None
  | x :: r => if x =? c then Some ([], r) else match strchr c r with None => None | Some (a, b) => Some (x :: a, b) end
  end.

(* 1961-1970, 2030-2039: copy the characters before M to offstr[16], then atoll(offstr) * 1024 * 1024.
   init is what offstr held.  None: undefined.  The copy writes before it compares, so that it does not end
   when there is nothing before M. *)
Fixpoint ends (s : bytes) : bool :=   (* a character that is not a digit, behind the digits *)
  match s with [] => false | c :: r => if (48 <=? c) && (c <=? 57) then ends r else true end.
Definition atoll_buf (b : bytes) : option Z :=
  let '(neg, t) := split_sign (skip_space b) in
  if ends t then let v := Z.of_N (digits 10 t 0) in Some (if neg then (- v)%Z else v) else None.
Definition off_m (init o : bytes) : option N :=
  if Nat.eqb (length o) 0 || Nat.ltb 16 (length o) then None
  else match atoll_buf (o ++ skipn (length o) init) with
       | None => None
       | Some v => let w := (v * 1048576)%Z in
                   if (- 2 ^ 63 <=? w)%Z && (w <? 2 ^ 63)%Z then Some (u64 w) else None
       end.

(* the string that is handed to the parser; None: undefined *)
Definition arg_string (init : bytes) (with_lver : bool) (arg : bytes) : option bytes :=
  match strchr CO arg with
  | None => Some arg
  | Some (a, r1) =>
      match strchr CO r1 with
      | None => Some arg
      | Some (b, r2) =>
          match strchr CO r2 with
          | None => Some arg
          | Some (c, r3) =>
              match strchr CH_M r3 with
              | None => Some arg
              | Some (o, _) =>
                  match off_m init o with
                  | None => None
                  | Some off =>
                      Some (a ++ CO :: b ++ CO :: c ++ CO :: print_llu off ++
                            (if with_lver then match strchr CO r3 with None => [] | Some (_, t) => CO :: t end else []))
                  end
              end
          end
      end
  end.

(* junk: offstr of parse_arg_lockspace is not initialised; parse_arg_resource clears it *)
Definition parse_arg_lockspace (junk arg : bytes) : option sls :=
  option_map str_to_lockspace (arg_string junk false arg).
Definition parse_arg_resource (arg : bytes) : option pres :=
  option_map str_to_res (arg_string (repeat 0 16) true arg).
