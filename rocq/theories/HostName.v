(* The name by which a host knows its own host lease: src/main.c:1476-1507 (setup_host_name), 2466 and 2862 (-e and
   our_host_name of sanlock.conf), src/delta_lease.c:364-370 and 451.  NAME_ID_SIZE and SANLK_NAME_LEN are 48.
   A C string is the characters before its 0; strings here have no 0 inside.  The uuid is any string. *)
From Coq Require Import String Ascii Bool Arith.
Open Scope string_scope.

(* 2466, 2862: strncpy of 48 into 49 zeroed bytes *)
Definition given_name (arg : string) : string := substring 0 48 arg.
(* 1495-1506: snprintf of 48 writes 47 and returns the full length; nodename is a zeroed array longer than 48 *)
Definition made_name (uuid node : string) : string :=
  let full := (uuid ++ ".")%string in
  let ret := String.length full in
  if Nat.ltb ret 48 then (full ++ substring 0 (48 - ret) node)%string else substring 0 47 full.
(* 1488-1507 *)
Definition host_name (arg uuid node : string) : string := if (given_name arg =? "")%string then made_name uuid node else given_name arg.

(* delta_lease.c:451: snprintf into 48 bytes *)
Definition recorded (name : string) : string := substring 0 47 name.
(* 367: strncmp of 48 *)
Definition is_own (rec name : string) : bool := (substring 0 48 rec =? substring 0 48 name)%string.
(* 364-370: no wait before the write; free: timestamp is LEASE_FREE *)
Definition no_wait (free : bool) (rec name : string) : bool := free || is_own rec name.
