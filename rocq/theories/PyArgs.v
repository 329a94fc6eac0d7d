(* The Python binding: from the arguments of a call to the arguments of the
   library function.  python/sanlock.c:75-281 and 480-500 (conversions),
   437-1420 and 1549-1895 (the functions; killpath is in PyKill.v), for Python 3 on a 64 bit system.

   An object is one of those which the conversions tell apart.  OStr b is a str
   or a path object whose form in the file system encoding is b; an object with
   an __index__ or a bool is the OInt of its value.
   Simplified: memory does not run out, the list of disks does not change while
   it is read, lists have less than 2^31 elements, and the text of exceptions is
   left out. *)
From Coq Require Import List NArith ZArith Lia Bool Arith String.
From Verif Require Import Bytes Strings.
Import ListNotations.
Open Scope N_scope.

Inductive pobj :=
| OBytes (b : bytes)
| OStr (b : bytes)
| OInt (z : Z)
| ONone
| OList (l : list pobj)
| OTuple (l : list pobj)
| OOther.

(* the letters of the formats: O& with convert_to_pybytes, O& with
   pypath_converter, O! with PyList_Type, k and K, I, i, l, O *)
Inductive unit_ := UBytes | UPath | UList | UU64 | UU32 | UI32 | UI64 | UObj.
Inductive cv := CB (b : bytes) | CL (l : list pobj) | CN (n : N) | CZ (z : Z) | CO (o : pobj).

Definition wrap (w : Z) (z : Z) : N := Z.to_N (z mod 2 ^ w).
Definition sfits (w : Z) (z : Z) : bool := ((- 2 ^ (w - 1) <=? z) && (z <? 2 ^ (w - 1)))%Z.
(* a value converted to int *)
Definition as_int (z : Z) : Z := let y := (z mod 2 ^ 32)%Z in if (y <? 2 ^ 31)%Z then y else (y - 2 ^ 32)%Z.
Definition has_nul (b : bytes) : bool := existsb (fun c => c =? 0) b.

(* 75-114 pypath_converter: PyUnicode_FSConverter rejects a null byte; 480-505
   convert_to_pybytes: any bytes; k, K and I do not check for overflow *)
Definition conv (u : unit_) (o : pobj) : option cv :=
  match u, o with
  | UBytes, OBytes b => Some (CB b)
  | UPath, OBytes b => if has_nul b then None else Some (CB b)
  | UPath, OStr b => if has_nul b then None else Some (CB b)
  | UList, OList l => Some (CL l)
  | UU64, OInt z => Some (CN (wrap 64 z))
  | UU32, OInt z => Some (CN (wrap 32 z))
  | UI32, OInt z => if sfits 32 z then Some (CZ z) else None
  | UI64, OInt z => if sfits 64 z then Some (CZ z) else None
  | UObj, _ => Some (CO o)
  | _, _ => None
  end.

(* PyArg_ParseTupleAndKeywords: the name, the letter, the value if the argument
   is left out (None: it may not be) *)
Definition param := (string * unit_ * option cv)%type.
Definition kwarg := (string * pobj)%type.

Fixpoint kw_get (k : string) (kw : list kwarg) : option pobj :=
  match kw with [] => None | (n, o) :: r => if String.eqb n k then Some o else kw_get k r end.
Definition kw_known (ps : list param) (kw : list kwarg) : bool :=
  forallb (fun a => existsb (fun p => String.eqb (fst (fst p)) (fst a)) ps) kw.

(* one parameter after the other: by position, else by name; both is an error *)
Fixpoint bind (ps : list param) (pos : list pobj) (kw : list kwarg) : option (list cv) :=
  match ps with
  | [] => match pos with [] => Some [] | _ => None end
  | (n, u, d) :: r =>
      match pos with
      | o :: pos' =>
          match kw_get n kw with
          | Some _ => None
          | None => match conv u o, bind r pos' kw with Some v, Some l => Some (v :: l) | _, _ => None end
          end
      | [] =>
          match kw_get n kw with
          | Some o => match conv u o, bind r [] kw with Some v, Some l => Some (v :: l) | _, _ => None end
          | None => match d, bind r [] kw with Some v, Some l => Some (v :: l) | _, _ => None end
          end
      end
  end.
Definition parse (ps : list param) (pos : list pobj) (kw : list kwarg) : option (list cv) :=
  if kw_known ps kw then bind ps pos kw else None.

(* strncpy(dst, src, n) into zeroed memory of m bytes, m >= n *)
Definition strncpy (n m : nat) (s : bytes) : bytes :=
  let t := firstn n (upto_nul s) in t ++ repeat 0 (m - List.length t).
Definition name_buf (s : bytes) : bytes := strncpy SANLK_NAME_LEN SANLK_NAME_LEN s.
Definition path_buf (s : bytes) : bytes := strncpy (SANLK_PATH_LEN - 1) SANLK_PATH_LEN s.

(* src/sanlock.h:110-121, 156-161; the fields which are set *)
Record pls := Pls { l_name : bytes; l_host : N; l_flags : N; l_path : bytes; l_off : N }.
Record pres_ := Pres { r_ls : bytes; r_name : bytes; r_lver : N; r_flags : N; r_disks : list (bytes * N) }.

(* calls of the library; the name of an event or of get_hosts is the C string *)
Inductive call :=
| LDirectAlign (path : bytes)
| LWriteLockspace (l : pls) (max_hosts : Z) (flags io : N)
| LReadLockspace (l : pls)
| LReadResource (r : pres_)
| LWriteResource (r : pres_) (max_hosts num_hosts : Z) (flags : N)
| LAddLockspace (l : pls) (flags io : N)
| LInqLockspace (l : pls) (flags : N)
| LRemLockspace (l : pls) (flags : N)
| LGetHosts (name : bytes) (host : N)
| LAcquire (fd pid : Z) (flags : N) (r : pres_)
| LInquire (fd pid : Z)
| LRelease (fd pid : Z) (r : pres_)
| LRequest (flags action : N) (r : pres_)
| LReadOwners (r : pres_)
| LRegEvent (name : bytes)
| LGetEvent (fd : Z)
| LEndEvent (fd : Z) (name : bytes)
| LSetEvent (name : bytes) (host gen event data flags : N)
| LSetLvb (r : pres_) (data : bytes) (len : Z)
| LGetLvb (r : pres_) (len : N).

(* 148-157 validate_path, 159-187 parse_single_disk *)
Definition parse_single_disk (o : pobj) : option (bytes * N) :=
  match o with
  | OTuple [p; q] =>
      match conv UPath p, conv UU64 q with
      | Some (CB b), Some (CN n) =>
          if Nat.ltb (SANLK_PATH_LEN - 1) (List.length b) then None else Some (path_buf b, n)
      | _, _ => None
      end
  | _ => None
  end.

(* 206-235 parse_disks: the disks of the resource *)
Fixpoint parse_disks (l : list pobj) : option (list (bytes * N)) :=
  match l with
  | [] => Some []
  | o :: r => match parse_single_disk o, parse_disks r with Some d, Some ds => Some (d :: ds) | _, _ => None end
  end.

(* 236-251, 260-281 *)
Definition sector_flag (s : Z) : option N :=
  if (s =? 512)%Z then Some 256 else if (s =? 4096)%Z then Some 512 else None.
Definition align_flag (a : Z) : option N :=
  if (a =? 1048576)%Z then Some 16 else if (a =? 2097152)%Z then Some 32
  else if (a =? 4194304)%Z then Some 64 else if (a =? 8388608)%Z then Some 128 else None.
Definition size_flags (a s : Z) : option N :=
  match align_flag a, sector_flag s with Some x, Some y => Some (N.lor x y) | _, _ => None end.

(* 116-124 PyLong_AsUnsignedLongLongMask, 1119-1126: 2^64-1 is
   taken for an error *)
Definition version_arg (o : pobj) : option N :=
  match o with OInt z => if wrap 64 z =? 2 ^ 64 - 1 then None else Some (wrap 64 z) | _ => None end.

Inductive pyfn :=
| FGetAlignment | FWriteLockspace | FReadLockspace | FReadResource | FWriteResource
| FAddLockspace | FInqLockspace | FRemLockspace | FGetHosts | FAcquire | FInquire | FRelease
| FRequest | FReadOwners | FRegEvent | FGetEvent | FEndEvent | FSetEvent | FSetLvb | FGetLvb.

Definition req (n : string) (u : unit_) : param := (n, u, None).
Definition opt (n : string) (u : unit_) (v : cv) : param := (n, u, Some v).
Open Scope string_scope.

(* the kwlist and format of every function, in the order of the source; the
   positional ones (get_alignment, reg_event, get_event, end_event) have no
   keywords *)
Definition params (f : pyfn) : list param :=
  match f with
  | FGetAlignment => [req "path" UPath]                                                     (* 445 *)
  | FWriteLockspace => [req "lockspace" UBytes; req "path" UPath; opt "offset" UU64 (CN 0);
      opt "max_hosts" UI32 (CZ 0); opt "iotimeout" UU32 (CN 0); opt "align" UI64 (CZ 1048576);
      opt "sector" UI32 (CZ 512)]                                                           (* 523-529 *)
  | FReadLockspace => [req "path" UPath; opt "offset" UU64 (CN 0); opt "align" UI64 (CZ 1048576);
      opt "sector" UI32 (CZ 512)]                                                           (* 579-583 *)
  | FReadResource => [req "path" UPath; opt "offset" UU64 (CN 0); opt "align" UI64 (CZ 1048576);
      opt "sector" UI32 (CZ 512)]                                                           (* 642-650 *)
  | FWriteResource => [req "lockspace" UBytes; req "resource" UBytes; req "disks" UList;
      opt "max_hosts" UI32 (CZ 0); opt "num_hosts" UI32 (CZ 0); opt "clear" UI32 (CZ 0);
      opt "align" UI64 (CZ 1048576); opt "sector" UI32 (CZ 512)]                            (* 721-727 *)
  | FAddLockspace => [req "lockspace" UBytes; req "host_id" UU64; req "path" UPath; opt "offset" UU64 (CN 0);
      opt "iotimeout" UU32 (CN 0); opt "wait" UI32 (CZ 1)]                                  (* 788-794 *)
  | FInqLockspace => [req "lockspace" UBytes; req "host_id" UU64; req "path" UPath; opt "offset" UU64 (CN 0);
      opt "wait" UI32 (CZ 0)]                                                               (* 842-848 *)
  | FRemLockspace => [req "lockspace" UBytes; req "host_id" UU64; req "path" UPath; opt "offset" UU64 (CN 0);
      opt "wait" UI32 (CZ 1); opt "unused" UI32 (CZ 0)]                                     (* 903-910 *)
  | FGetHosts => [req "lockspace" UBytes; opt "host_id" UU64 (CN 0)]                        (* 1035-1039 *)
  | FAcquire => [req "lockspace" UBytes; req "resource" UBytes; req "disks" UList; opt "slkfd" UI32 (CZ (-1));
      opt "pid" UI32 (CZ (-1)); opt "shared" UI32 (CZ 0); opt "lvb" UI32 (CZ 0); opt "version" UObj (CO ONone)]
                                                                                            (* 1084-1090 *)
  | FInquire => [opt "slkfd" UI32 (CZ (-1)); opt "pid" UI32 (CZ (-1))]                      (* 1175-1189 *)
  | FRelease => [req "lockspace" UBytes; req "resource" UBytes; req "disks" UList; opt "slkfd" UI32 (CZ (-1));
      opt "pid" UI32 (CZ (-1))]                                                             (* 1244-1250 *)
  | FRequest => [req "lockspace" UBytes; req "resource" UBytes; req "disks" UList; opt "action" UI32 (CZ 2);
      opt "version" UObj (CO ONone)]                                                        (* 1300-1306 *)
  | FReadOwners => [req "lockspace" UBytes; req "resource" UBytes; req "disks" UList;
      opt "align" UI64 (CZ 1048576); opt "sector" UI32 (CZ 512)]                            (* 1372-1378 *)
  | FRegEvent => [req "lockspace" UBytes]                                                   (* 1555 *)
  | FGetEvent => [req "fd" UI32]                                                            (* 1600 *)
  | FEndEvent => [req "fd" UI32; req "lockspace" UBytes]                                    (* 1657 *)
  | FSetEvent => [req "lockspace" UBytes; req "host_id" UU64; req "generation" UU64; req "event" UU64;
      opt "data" UU64 (CN 0); opt "flags" UU32 (CN 0)]                                      (* 1737-1742 *)
  | FSetLvb => [req "lockspace" UBytes; req "resource" UBytes; req "disks" UList; req "data" UBytes]
                                                                                            (* 1788-1791 *)
  | FGetLvb => [req "lockspace" UBytes; req "resource" UBytes; req "disks" UList; req "size" UU32]
                                                                                            (* 1849-1852 *)
  end.
Close Scope string_scope.

Definition positional (f : pyfn) : bool :=
  match f with FGetAlignment | FRegEvent | FGetEvent | FEndEvent => true | _ => false end.

Definition truth (z : Z) : bool := negb (z =? 0)%Z.
Definition fl (b : bool) (n : N) : N := if b then n else 0.

(* the part of a resource which does not depend on the function *)
Definition mk_res (ls r : bytes) (lver flags : N) (ds : list (bytes * N)) : pres_ :=
  Pres (name_buf ls) (name_buf r) lver flags ds.

(* after parsing: None is an exception raised by the binding *)
Definition body (f : pyfn) (l : list cv) : option call :=
  match f, l with
  | FGetAlignment, [CB p] => Some (LDirectAlign (path_buf p))                               (* 449-453 *)
  | FWriteLockspace, [CB n; CB p; CN off; CZ mh; CN io; CZ a; CZ s] =>                      (* 533-546 *)
      match size_flags a s with
      | Some x => Some (LWriteLockspace (Pls (name_buf n) 0 x (path_buf p) off) mh 0 io)
      | None => None
      end
  | FReadLockspace, [CB p; CN off; CZ a; CZ s] =>                                           (* 588-599 *)
      match size_flags a s with
      | Some x => Some (LReadLockspace (Pls (name_buf []) 0 x (path_buf p) off))
      | None => None
      end
  | FReadResource, [CB p; CN off; CZ a; CZ s] =>                                            (* 654-669 *)
      if Nat.ltb (SANLK_PATH_LEN - 1) (List.length p) then None
      else match size_flags a s with
           | Some x => Some (LReadResource (mk_res [] [] 0 x [(path_buf p, off)]))
           | None => None
           end
  | FWriteResource, [CB n; CB r; CL d; CZ mh; CZ nh; CZ c; CZ a; CZ s] =>                   (* 731-753 *)
      match parse_disks d with
      | None => None
      | Some ds =>
          match size_flags a s with
          | Some x => Some (LWriteResource (mk_res n r 0 x ds) mh nh (fl (truth c) 1))
          | None => None
          end
      end
  | FAddLockspace, [CB n; CN h; CB p; CN off; CN io; CZ w] =>                               (* 798-809 *)
      Some (LAddLockspace (Pls (name_buf n) h 0 (path_buf p) off) (fl (negb (truth w)) 1) io)
  | FInqLockspace, [CB n; CN h; CB p; CN off; CZ w] =>                                      (* 852-863 *)
      Some (LInqLockspace (Pls (name_buf n) h 0 (path_buf p) off) (fl (truth w) 1))
  | FRemLockspace, [CB n; CN h; CB p; CN off; CZ w; CZ u] =>                                (* 914-929 *)
      Some (LRemLockspace (Pls (name_buf n) h 0 (path_buf p) off)
              (N.lor (fl (negb (truth w)) 1) (fl (truth u) 2)))
  | FGetHosts, [CB n; CN h] => Some (LGetHosts (upto_nul n) h)                              (* 1045 *)
  | FAcquire, [CB n; CB r; CL d; CZ fd; CZ pid; CZ sh; CZ lvb; CO v] =>                     (* 1094-1130 *)
      if ((fd =? -1) && (pid =? -1))%Z then None
      else match parse_disks d with
           | None => None
           | Some ds =>
               match v with
               | ONone => Some (LAcquire fd pid (fl (truth lvb) 1) (mk_res n r 0 (fl (truth sh) 4) ds))
               | _ => match version_arg v with
                      | None => None
                      | Some x => Some (LAcquire fd pid (fl (truth lvb) 1)
                                          (mk_res n r x (N.lor (fl (truth sh) 4) 1) ds))
                      end
               end
           end
  | FInquire, [CZ fd; CZ pid] =>                                                            (* 1193-1201 *)
      if ((fd =? -1) && (pid =? -1))%Z then None else Some (LInquire fd pid)
  | FRelease, [CB n; CB r; CL d; CZ fd; CZ pid] =>                                          (* 1254-1265 *)
      match parse_disks d with None => None | Some ds => Some (LRelease fd pid (mk_res n r 0 0 ds)) end
  | FRequest, [CB n; CB r; CL d; CZ act; CO v] =>                                           (* 1310-1333 *)
      match parse_disks d with
      | None => None
      | Some ds =>
          match v with
          | ONone => Some (LRequest 1 (wrap 32 act) (mk_res n r 0 0 ds))
          | _ => match version_arg v with
                 | None => None
                 | Some x => Some (LRequest 0 (wrap 32 act) (mk_res n r x 1 ds))
                 end
          end
      end
  | FReadOwners, [CB n; CB r; CL d; CZ a; CZ s] =>                                          (* 1382-1401 *)
      match parse_disks d with
      | None => None
      | Some ds => match size_flags a s with Some x => Some (LReadOwners (mk_res n r 0 x ds)) | None => None end
      end
  | FRegEvent, [CB n] => Some (LRegEvent (upto_nul n))                                      (* 1560 *)
  | FGetEvent, [CZ fd] => Some (LGetEvent fd)                                               (* 1608 *)
  | FEndEvent, [CZ fd; CB n] => Some (LEndEvent fd (upto_nul n))                            (* 1662 *)
  | FSetEvent, [CB n; CN h; CN g; CN e; CN d; CN x] => Some (LSetEvent (upto_nul n) h g e d x)  (* 1747 *)
  | FSetLvb, [CB n; CB r; CL d; CB data] =>                                                 (* 1795-1803 *)
      match parse_disks d with
      | None => None
      | Some ds => Some (LSetLvb (mk_res n r 0 0 ds) data (as_int (Z.of_nat (List.length data))))
      end
  | FGetLvb, [CB n; CB r; CL d; CN len] =>                                                  (* 1856-1876 *)
      if (len <? 1) || (4096 <? len) then None
      else match parse_disks d with None => None | Some ds => Some (LGetLvb (mk_res n r 0 0 ds) len) end
  | _, _ => None
  end.

(* a call from Python: None is an exception and no call of the library *)
Definition run (f : pyfn) (pos : list pobj) (kw : list kwarg) : option call :=
  if positional f && negb (match kw with [] => true | _ => false end) then None
  else match parse (params f) pos kw with None => None | Some l => body f l end.
