(* The string forms of paths and resources: src/client.c:1840-2246.
   A C string is the list of its characters, none of them 0.  A write outside the
   destination buffer is a separate outcome. *)
From Coq Require Import List NArith ZArith Lia Bool Arith ZifyBool ZifyN ZifyNat.
From Verif Require Import Bytes.
Import ListNotations.
Open Scope N_scope.

Definition BS : N := 92.   (* backslash *)
Definition SP : N := 32.   (* space *)
Definition CO : N := 58.   (* colon *)
Definition SANLK_PATH_LEN : nat := 1024.
Definition SANLK_NAME_LEN : nat := 48.
Definition SANLK_MAX_DISKS : nat := 4.
Definition SANLK_MAX_RES_STR : nat := N.to_nat 4400.

(* ---------------- sanlock_path_export, 1840-1891 ---------------- *)
(* The characters stored at dst[0], dst[1], ...; j is the next index.  dstlen - 3
   and dstlen - 2 are size_t, hence the wrap below 3 and 2; a stored NUL ends the
   loop. *)
Definition size_sub (a b : Z) : Z := (a - b) mod 2 ^ 64.
Fixpoint path_export_w (dstlen : Z) (src : bytes) (j : Z) : bytes :=
  match src with
  | [] => []
  | c :: r =>
    if c =? BS then
      if (size_sub dstlen 3 <? j)%Z then []
      else match r with
           | [] => [BS; 0]
           | x :: r' => BS :: x :: path_export_w dstlen r' (j + 2)
           end
    else if (c =? SP) || (c =? CO) then
      if (size_sub dstlen 3 <? j)%Z then []
      else BS :: c :: path_export_w dstlen r (j + 2)
    else
      if (size_sub dstlen 2 <? j)%Z then []
      else c :: path_export_w dstlen r (j + 1)
  end.

(* the C string in a buffer of which the first bytes were stored and the others
   are 0 *)
Fixpoint upto_nul (l : bytes) : bytes :=
  match l with [] => [] | c :: r => if c =? 0 then [] else c :: upto_nul r end.
Definition path_export (dstlen : Z) (src : bytes) : bytes := upto_nul (path_export_w dstlen src 0).

(* ---------------- sanlock_path_import, 1895-1916 ---------------- *)
(* the characters stored from index j on, and whether the NUL was stored (the
   function returns 0 if it was not) *)
Fixpoint path_import_w (dstlen : nat) (src : bytes) (j : nat) : bytes * bool :=
  if Nat.leb dstlen j then ([], false)
  else match src with
       | [] => ([0], true)
       | c :: r =>
         if c =? BS then path_import_w dstlen r j
         else let '(w, t) := path_import_w dstlen r (S j) in (c :: w, t)
       end.

(* ---------------- numbers ---------------- *)
(* printf %llu *)
Fixpoint dec_aux (fuel : nat) (n : N) (acc : bytes) : bytes :=
  match fuel with
  | O => acc
  | S f => let acc' := (48 + n mod 10) :: acc in if n / 10 =? 0 then acc' else dec_aux f (n / 10) acc'
  end.
Definition print_llu (n : N) : bytes := dec_aux 20 n [].

(* strtoull: leading white space, an optional sign, the base prefix when base is
   0, digits; a value that does not fit becomes 2^64-1 *)
Definition is_space (c : N) : bool := (c =? 32) || ((9 <=? c) && (c <=? 13)).
Fixpoint skip_space (s : bytes) : bytes :=
  match s with c :: r => if is_space c then skip_space r else s | [] => [] end.
Definition digit_of (base : N) (c : N) : option N :=
  let v := if (48 <=? c) && (c <=? 57) then c - 48
           else if (97 <=? c) && (c <=? 102) then c - 87
           else if (65 <=? c) && (c <=? 70) then c - 55 else 99 in
  if v <? base then Some v else None.
Fixpoint digits (base : N) (s : bytes) (acc : N) : N :=
  match s with
  | c :: r => match digit_of base c with Some v => digits base r (acc * base + v) | None => acc end
  | [] => acc
  end.
Definition some_digit (base : N) (s : bytes) : bool :=
  match s with c :: _ => match digit_of base c with Some _ => true | None => false end | [] => false end.
Definition clamp (v : N) : N := if v <? 2 ^ 64 then v else 2 ^ 64 - 1.
Definition signed_value (neg : bool) (v : N) : N :=
  if neg then (if v <? 2 ^ 64 then (2 ^ 64 - v) mod 2 ^ 64 else 2 ^ 64 - 1) else clamp v.
Definition split_sign (s : bytes) : bool * bytes :=
  match s with c :: r => if c =? 45 then (true, r) else if c =? 43 then (false, r) else (false, s) | [] => (false, []) end.
(* sscanf "%llu": fails without a digit *)
Definition sscanf_llu (s : bytes) : option N :=
  let '(neg, t) := split_sign (skip_space s) in
  if some_digit 10 t then Some (signed_value neg (digits 10 t 0)) else None.
(* strtoull(s, NULL, 0) *)
Definition strtoull0 (s : bytes) : N :=
  let '(neg, t) := split_sign (skip_space s) in
  match t with
  | z :: x :: r =>
    if (z =? 48) && ((x =? 120) || (x =? 88)) && some_digit 16 r then signed_value neg (digits 16 r 0)
    else if z =? 48 then signed_value neg (digits 8 t 0) else signed_value neg (digits 10 t 0)
  | _ => signed_value neg (digits 10 t 0)
  end.

(* ---------------- struct sanlk_resource ---------------- *)
(* the members used here; names and paths are the strings they hold *)
Record sdisk := mkSdisk { sd_path : bytes; sd_offset : N }.
Record sres := mkSres { sr_space : bytes; sr_name : bytes; sr_lver : N; sr_flags : N; sr_disks : list sdisk }.
Definition RES_LVER : N := 1.
Definition RES_SHARED : N := 4.

(* ---------------- sanlock_res_to_str, 1923-1978 ---------------- *)
(* snprintf into len - pos bytes; None is the jump to fail.  The names are
   printed with %s, so a 48 byte name without a NUL runs on into the next member;
   the model takes names to be terminated. *)
Definition snprintf_or_fail (acc add : bytes) : option bytes :=
  if Nat.leb (SANLK_MAX_RES_STR - length acc) (length add) then None else Some (acc ++ add).
Definition disk_str (d : sdisk) : bytes :=
  CO :: path_export 1025 (sd_path d) ++ CO :: print_llu (sd_offset d).
Fixpoint disks_str (ds : list sdisk) (acc : bytes) : option bytes :=
  match ds with
  | [] => Some acc
  | d :: r => match snprintf_or_fail acc (disk_str d) with None => None | Some acc' => disks_str r acc' end
  end.
Definition has_shared (flags : N) : bool := negb (N.land flags RES_SHARED =? 0).
Definition res_to_str (r : sres) : option bytes :=
  match snprintf_or_fail [] (sr_space r ++ CO :: sr_name r) with
  | None => None
  | Some a =>
    match disks_str (sr_disks r) a with
    | None => None
    | Some b =>
      let add := if has_shared (sr_flags r) then [CO; 83; 72] else CO :: print_llu (sr_lver r) in
      (* line 1966: > where the others have >=; with equality the last character
         is cut off by snprintf *)
      if Nat.ltb (SANLK_MAX_RES_STR - length b) (length add) then None
      else Some (b ++ firstn (SANLK_MAX_RES_STR - length b - 1) add)
    end
  end.

(* ---------------- sanlock_str_to_res, 1990-2097 ---------------- *)
(* 1999-2009: unescaped colons *)
Fixpoint count_colons (s : bytes) : nat :=
  match s with
  | [] => 0
  | c :: r =>
    if c =? BS then match r with [] => 0 | _ :: r' => count_colons r' end
    else if c =? CO then S (count_colons r) else count_colons r
  end.

(* state of the loop: sub (its j characters), sub_count, d, and the result *)
Record pst := mkPst { p_sub : bytes; p_count : nat; p_d : nat; p_res : sres }.
Inductive pres := PBad | PFail | POk (r : sres).
Inductive pstep := SBad | SFail | SGo (s : pst).

Definition set_nth {A} (n : nat) (x : A) (l : list A) : list A := firstn n l ++ x :: skipn (S n) l.
Definition begins_SH (s : bytes) : bool :=
  match s with a :: b :: _ => (a =? 83) && (b =? 72) | _ => false end.

(* sub[j++] = c: sub has SANLK_PATH_LEN + 1 bytes; 2036-2050 *)
Definition push (s : pst) (c : N) : pstep :=
  let j := length (p_sub s) in
  if Nat.leb SANLK_PATH_LEN j then SFail
  else if Nat.leb (SANLK_PATH_LEN + 1) j then SBad
  else SGo (mkPst (p_sub s ++ [c]) (p_count s) (p_d s) (p_res s)).

(* 2056-2087: a field is complete.  disks[] has room for num_disks. *)
Definition field (num_disks : nat) (have_lver : bool) (s : pst) : pstep :=
  let sub := p_sub s in
  let r := p_res s in
  let next d r' := SGo (mkPst [] (S (p_count s)) d r') in
  if Nat.ltb (p_count s) 2 && Nat.ltb SANLK_NAME_LEN (length sub) then SFail
  else if Nat.leb 2 (p_count s) && (Nat.ltb (SANLK_PATH_LEN - 1) (length sub) || Nat.ltb (length sub) 1) then SFail
  else if Nat.eqb (p_count s) 0 then
    next (p_d s) (mkSres sub (sr_name r) (sr_lver r) (sr_flags r) (sr_disks r))
  else if Nat.eqb (p_count s) 1 then
    next (p_d s) (mkSres (sr_space r) sub (sr_lver r) (sr_flags r) (sr_disks r))
  else if Nat.even (p_count s) then
    if have_lver && Nat.eqb (p_d s) num_disks then
      if begins_SH sub
      then next (p_d s) (mkSres (sr_space r) (sr_name r) (sr_lver r) (N.lor (sr_flags r) RES_SHARED) (sr_disks r))
      else next (p_d s) (mkSres (sr_space r) (sr_name r) (strtoull0 sub) (N.lor (sr_flags r) RES_LVER) (sr_disks r))
    else if Nat.ltb (p_d s) num_disks then
      next (p_d s) (mkSres (sr_space r) (sr_name r) (sr_lver r) (sr_flags r)
                      (set_nth (p_d s) (mkSdisk sub (sd_offset (nth (p_d s) (sr_disks r) (mkSdisk [] 0)))) (sr_disks r)))
    else SBad
  else
    match sscanf_llu sub with
    | None => SFail
    | Some v =>
      if Nat.ltb (p_d s) num_disks then
        next (S (p_d s)) (mkSres (sr_space r) (sr_name r) (sr_lver r) (sr_flags r)
                           (set_nth (p_d s) (mkSdisk (sd_path (nth (p_d s) (sr_disks r) (mkSdisk [] 0))) v) (sr_disks r)))
      else SBad
    end.

(* 2034-2090 *)
Fixpoint parse_loop (nd : nat) (hl : bool) (s : bytes) (st : pst) : pres :=
  match s with
  | [] => match field nd hl st with SBad => PBad | SFail => PFail | SGo st' => POk (p_res st') end
  | c :: r =>
    if c =? BS then
      match r with
      | [] => PFail
      | x :: r' => match push st x with SBad => PBad | SFail => PFail | SGo st' => parse_loop nd hl r' st' end
      end
    else if negb (c =? CO) then
      match push st c with SBad => PBad | SFail => PFail | SGo st' => parse_loop nd hl r st' end
    else
      match field nd hl st with SBad => PBad | SFail => PFail | SGo st' => parse_loop nd hl r st' end
  end.

Definition str_to_res (s : bytes) : pres :=
  if Nat.ltb (length s) 3 then PFail
  else
    let colons := count_colons s in
    if Nat.eqb colons 0 || Nat.eqb colons 2 then PFail
    else
      let nd := ((colons - 1) / 2)%nat in
      let hl := Nat.eqb ((colons - 1) mod 2) 1 in
      if Nat.ltb SANLK_MAX_DISKS nd then PFail
      else parse_loop nd hl s (mkPst [] 0 0 (mkSres [] [] 0 0 (repeat (mkSdisk [] 0) nd))).

(* ---------------- sanlock_state_to_args, 2149-2246 ---------------- *)
(* 2162-2169 *)
Fixpoint count_spaces (s : bytes) : nat :=
  match s with
  | [] => 0
  | c :: r =>
    if c =? BS then match r with [] => 0 | _ :: r' => count_spaces r' end
    else if c =? SP then S (count_spaces r) else count_spaces r
  end.

(* AFreed: 2222 jumps to fail_free with rv = 0, so the caller is told of success
   while the array has been freed *)
Inductive ares := ABad | AFreed | AFail | AOk (rs : list sres).

(* 2184-2230: str has SANLK_MAX_RES_STR + 1 bytes and no check; args has count
   elements.  [str] are the j characters stored so far.  When they fill the buffer
   there is no NUL left and str_to_res reads past it. *)
Definition parse_buf (str : bytes) : pres :=
  if Nat.leb (SANLK_MAX_RES_STR + 1) (length str) then PBad else str_to_res str.
Definition room (str : bytes) (n : nat) : bool := Nat.leb (length str + n) (SANLK_MAX_RES_STR + 1).
Fixpoint state_loop (count : nat) (s : bytes) (str : bytes) (escape : bool) (colons : nat) (args : list sres) : ares :=
  match s with
  | [] =>
    match parse_buf str with
    | PBad => ABad
    | PFail => AFail
    | POk r => if Nat.eqb (length args) count then AFreed
               else if Nat.ltb (length args) count then AOk (args ++ [r]) else ABad
    end
  | c :: r =>
    if c =? BS then
      if room str 1 then state_loop count r (str ++ [c]) true colons args else ABad
    else if escape then
      if room str 1 then state_loop count r (str ++ [c]) false colons args else ABad
    else if (c =? SP) && Nat.ltb colons 3 then
      if room str 2 then state_loop count r (str ++ [BS; c]) false colons args else ABad
    else if negb (c =? SP) then
      if room str 1 then state_loop count r (str ++ [c]) false (if c =? CO then S colons else colons) args else ABad
    else
      match parse_buf str with
      | PBad => ABad
      | PFail => AFail
      | POk x => if Nat.eqb (length args) count then AFreed
                 else if Nat.ltb (length args) count then state_loop count r [] false 0 (args ++ [x]) else ABad
      end
  end.
Definition state_to_args (s : bytes) : ares := state_loop (S (count_spaces s)) s [] false 0 [].
