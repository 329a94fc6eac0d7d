(* The Python binding: from what the library returns to Python objects.
   python/sanlock.c:38-60 set_sanlock_error, 294-411 and 945-985 the lists,
   602-630, 671-703 read_lockspace and read_resource, 866-884 inq_lockspace,
   1201-1230 inquire, 1600-1646 get_event; for Python 3.

   A C string in a structure is read from the memory of the structure: it ends at
   the first 0, which may be in a later member (src/sanlock.h:53-58, 110-121,
   156-161; little endian).
   Simplified: memory does not run out; the flags of a resource, which are passed
   as a 32 bit argument for the 64 bit format k, arrive as they are (whether the
   other 32 bits are 0 is left to the compiler). *)
From Coq Require Import List NArith ZArith Lia Bool Arith String.
From Verif Require Import Bytes Strings PyArgs.
Import ListNotations.
Open Scope N_scope.

(* a str is given by its UTF-8 form *)
Inductive pyval :=
| VBytes (b : bytes) | VStr (b : bytes) | VInt (n : N) | VTrue | VFalse | VNone
| VList (l : list pyval) | VTuple (l : list pyval) | VDict (l : list (string * pyval)).

(* result of a call: a value, an exception, an access through a null pointer or
   past the memory *)
Inductive pyres := RVal (v : pyval) | RRaise | RCrash.

(* the string at the start of m: None if there is no end in m *)
Fixpoint cstring (m : bytes) : option bytes :=
  match m with
  | [] => None
  | c :: r => if c =? 0 then Some [] else match cstring r with Some s => Some (c :: s) | None => None end
  end.

(* the decoder of s, PyUnicode_FromStringAndSize: strict UTF-8 *)
Definition cont (c : N) : bool := (128 <=? c) && (c <=? 191).
Fixpoint utf8 (b : bytes) : bool :=
  match b with
  | [] => true
  | c :: r =>
      if c <? 128 then utf8 r
      else if (194 <=? c) && (c <=? 223) then match r with d :: r' => cont d && utf8 r' | _ => false end
      else if (224 <=? c) && (c <=? 239) then
        match r with
        | d :: e :: r' =>
            cont d && cont e && negb ((c =? 224) && (d <? 160)) && negb ((c =? 237) && (159 <? d)) && utf8 r'
        | _ => false
        end
      else if (240 <=? c) && (c <=? 244) then
        match r with
        | d :: e :: f :: r' =>
            cont d && cont e && cont f && negb ((c =? 240) && (d <? 144)) && negb ((c =? 244) && (143 <? d)) && utf8 r'
        | _ => false
        end
      else false
  end.

(* format y and format s *)
Definition fmt_y (m : bytes) : pyres := match cstring m with Some s => RVal (VBytes s) | None => RCrash end.
Definition fmt_s (m : bytes) : pyres :=
  match cstring m with Some s => if utf8 s then RVal (VStr s) else RRaise | None => RCrash end.

Notation "'get' x <- a ; b" := (match a with RVal x => b | RRaise => RRaise | RCrash => RCrash end)
  (at level 200, x name, a at level 100, b at level 200).

(* one entry after the other; the first failure is the result *)
Fixpoint each {A} (f : A -> pyres) (l : list A) : pyres :=
  match l with
  | [] => RVal (VList [])
  | x :: r => get v <- f x; get w <- each f r; match w with VList vs => RVal (VList (v :: vs)) | _ => RCrash end
  end.

Open Scope string_scope.
Open Scope N_scope.
(* 294-324; src/sanlock.h sanlk_host *)
Record phost := Phost { h_id : N; h_gen : N; h_time : N; h_io : N; h_flags : N }.
Definition host_entry (h : phost) : pyres :=
  RVal (VDict [("host_id", VInt (h_id h)); ("generation", VInt (h_gen h)); ("timestamp", VInt (h_time h));
               ("io_timeout", VInt (h_io h)); ("flags", VInt (h_flags h))]).
Definition hosts_to_list (l : list phost) : pyres := each host_entry l.

(* 327-360; a disk: path, offset, two words of padding *)
Definition disk_mem (d : bytes * N) : bytes := (fst d ++ le_enc 8 (snd d) ++ repeat 0 8)%list.
Definition disk_entry (d : bytes * N) : pyres :=
  get p <- fmt_s (disk_mem d); RVal (VTuple [p; VInt (snd d)]).
Definition disks_to_list (l : list (bytes * N)) : pyres := each disk_entry l.

(* src/sanlock.h:110-121 from the name on: data64, data32 and unused are 0 *)
Definition res_mem_name (r : pres_) : bytes :=
  (r_name r ++ le_enc 8 (r_lver r) ++ repeat 0 16 ++ le_enc 4 (r_flags r) ++ le_enc 4 (N.of_nat (List.length (r_disks r)))
   ++ List.concat (map disk_mem (r_disks r)))%list.
Definition res_mem (r : pres_) : bytes := (r_ls r ++ res_mem_name r)%list.

(* 363-405 *)
Definition res_entry (r : pres_) : pyres :=
  get d <- disks_to_list (r_disks r); get n <- fmt_y (res_mem r); get m <- fmt_y (res_mem_name r);
  RVal (VDict [("lockspace", n); ("resource", m); ("flags", VInt (r_flags r)); ("version", VInt (r_lver r)); ("disks", d)]).
Definition resources_to_list (l : list pres_) : pyres := each res_entry l.

(* src/sanlock.h:156-161: four bytes of padding behind the flags *)
Definition ls_mem (l : pls) : bytes :=
  (l_name l ++ le_enc 8 (l_host l) ++ le_enc 4 (l_flags l) ++ repeat 0 4 ++ disk_mem (l_path l, l_off l))%list.
(* 945-985 *)
Definition ls_entry (l : pls) : pyres :=
  get n <- fmt_y (ls_mem l); get p <- fmt_s (disk_mem (l_path l, l_off l));
  RVal (VDict [("lockspace", n); ("host_id", VInt (l_host l)); ("path", p); ("offset", VInt (l_off l)); ("flags", VInt (l_flags l))]).
Definition lockspaces_to_list (l : list pls) : pyres := each ls_entry l.

(* 602-630: rv and what the library stored *)
Definition read_lockspace_result (rv : Z) (l : pls) (io : N) : pyres :=
  if (rv =? 0)%Z then get n <- fmt_y (ls_mem l); RVal (VDict [("lockspace", n); ("iotimeout", VInt io)]) else RRaise.
(* 671-703 *)
Definition read_resource_result (rv : Z) (r : pres_) : pyres :=
  if (rv =? 0)%Z then
    get n <- fmt_y (res_mem r); get m <- fmt_y (res_mem_name r);
    RVal (VDict [("lockspace", n); ("resource", m); ("version", VInt (r_lver r))])
  else RRaise.

(* 866-884: BIND_ERROR is -1000, ENOENT 2, EINPROGRESS 115 *)
Definition inq_result (rv : Z) : pyres :=
  if (rv =? -1000)%Z then RRaise else if (rv =? 0)%Z then RVal VTrue
  else if (rv =? -2)%Z then RVal VFalse else if (rv =? -115)%Z then RVal VNone else RRaise.

(* 38-60: the number in the exception *)
Definition error_number (en : Z) : Z := if ((en <? 0) && (-200 <? en))%Z then (- en)%Z else en.

(* src/client.c:2149-2246 leaves the count behind when it fails; the result is a
   resource whose members are those of the text, the others are 0 *)
Definition of_sres (r : sres) : pres_ :=
  Pres (name_buf (sr_space r)) (name_buf (sr_name r)) (sr_lver r) (sr_flags r)
       (map (fun d => (path_buf (sd_path d), sd_offset d)) (sr_disks r)).
(* 1201-1230, after the call of sanlock_inquire: the count and the text.  When the
   text does not parse, res_arr is still NULL while res_count is not 0; when
   state_to_args returns 0 without a result, resources_to_list gets NULL *)
Definition inquire_result (rv : Z) (count : nat) (state : bytes) : pyres :=
  if negb (rv =? 0)%Z then RRaise
  else if Nat.ltb 0 count then
    match state_to_args state with
    | AOk rs => resources_to_list (map of_sres rs)
    | AFail => RCrash
    | AFreed => RCrash
    | ABad => RCrash
    end
  else resources_to_list [].

(* 1603-1646: the answers of sanlock_get_event, one for each round *)
Record pevent := Pevent { e_from : N; e_fgen : N; e_host : N; e_gen : N; e_event : N; e_data : N }.
Inductive evans := EvOk (e : pevent) | EvErr (rv : Z).
Definition event_entry (e : pevent) : pyval :=
  VDict [("from_host_id", VInt (e_from e)); ("from_generation", VInt (e_fgen e)); ("host_id", VInt (e_host e));
         ("generation", VInt (e_gen e)); ("event", VInt (e_event e)); ("data", VInt (e_data e))].
(* None: there are more rounds than answers; the second part is the number of
   answers used *)
Fixpoint get_event_loop (ans : list evans) (acc : list pyval) (used : nat) : option (pyres * nat) :=
  match ans with
  | [] => None
  | EvErr rv :: _ => Some (if (rv =? -11)%Z then RVal (VList acc) else RRaise, S used)
  | EvOk e :: r => get_event_loop r (acc ++ [event_entry e])%list (S used)
  end.
