(* Reading and writing the value block of a held resource over the socket:
   both ends of the two messages. *)
Require Import List ZArith Lia Bool.
Import ListNotations.
Open Scope Z_scope.

Definition byte := Z.

(* sanlock_sock.h:67-76 and sanlock.h:98-109 *)
Definition HDR : Z := 32.
Definition RES_SIZE : Z := 128.
Definition MAX_LVB : Z := 4096.

Definition ENOENT : Z := 2.
Definition E2BIG : Z := 7.
Definition ENOMEM : Z := 12.
Definition EINVAL : Z := 22.
Definition ENOTCONN : Z := 107.

Definition u32 (x : Z) : Z := x mod 2 ^ 32.
(* conversion to int *)
Definition i32 (x : Z) : Z :=
  let y := x mod 2 ^ 32 in if y <? 2 ^ 31 then y else y - 2 ^ 32.

Fixpoint take (n : nat) (l : list byte) : list byte :=
  match n, l with S n, x :: l => x :: take n l | _, _ => [] end.

(* What a receiver can get from the other end of the connection: the bytes
   sent, after which the sender closed the connection or keeps it open. *)
Record wire := Wire { w_bytes : list byte; w_open : bool }.

(* recv with MSG_WAITALL (sanlock util recv_loop, client.c:123-132 recv_data):
   all of the bytes, or the fewer which come before the end; it waits as long
   as bytes are missing and the connection is open. *)
Inductive received := Got (l : list byte) | Short | Waits.
Definition recv (w : wire) (n : Z) : received :=
  if Z.of_nat (length (w_bytes w)) <? n
  then (if w_open w then Waits else Short)
  else Got (take (Z.to_nat n) (w_bytes w)).

(* The resource in the daemon (resource.c:702-771): its block has as many
   bytes as the sector; dirty is R_LVB_WRITE_RELEASE. *)
Record held := Held { h_lvb : option (list byte); h_sector : Z; h_dirty : bool }.

(* memcpy of n bytes over the start of a block *)
Definition copy_over (new old : list byte) : list byte :=
  new ++ skipn (length new) old.

(* resource.c:702-732  res_set_lvb.  The comparison at 719 is between int and
   uint32_t, so it is made on unsigned numbers. *)
Definition res_set_lvb (r : option held) (lvb : list byte) (lvblen : Z) : Z * option held :=
  match r with
  | None => (- ENOENT, r)
  | Some h =>
    match h_lvb h with
    | None => (- EINVAL, r)
    | Some old =>
      if h_sector h <? u32 lvblen then (- E2BIG, r)
      else (0, Some (Held (Some (copy_over lvb old)) (h_sector h) true))
    end
  end.

(* cmd.c:1142-1192  cmd_set_lvb, after the resource has been received.
   length is the uint32_t of the header; the subtraction is made on size_t
   and cut to int.  malloc of a negative int asks for almost 2^64 bytes and
   fails; mem says whether a possible size is granted. *)
Inductive set_out := SetReply (rv : Z) (r : option held) | SetWaits.
Definition cmd_set_lvb (length : Z) (w : wire) (mem : bool) (r : option held) : set_out :=
  let lvblen := i32 (length - HDR - RES_SIZE) in
  if MAX_LVB <? lvblen then SetReply (- E2BIG) r
  else if (lvblen <? 0) || negb mem then SetReply (- ENOMEM) r
  else match recv w lvblen with
       | Waits => SetWaits
       | Short => SetReply (- ENOTCONN) r
       | Got l => let '(rv, r') := res_set_lvb r l lvblen in SetReply rv r'
       end.

(* resource.c:734-771  res_get_lvb: result, the copy and its length.  A copy
   of more bytes than the block has reads past it. *)
Inductive get_res := GetRes (rv : Z) (lvb : option (list byte)) (lvblen : Z) | OverRead.
Definition res_get_lvb (r : option held) (lvblen : Z) (mem : bool) : get_res :=
  match r with
  | None => GetRes (- ENOENT) None lvblen
  | Some h =>
    match h_lvb h with
    | None => GetRes (- EINVAL) None lvblen
    | Some b =>
      let len := if lvblen =? 0 then h_sector h else lvblen in
      if (len <? 0) || negb mem then GetRes (- ENOMEM) None lvblen
      else if Z.of_nat (length b) <? len then OverRead
      else GetRes 0 (Some (take (Z.to_nat len) b)) len
    end
  end.

(* cmd.c:1194-1234  cmd_get_lvb: the reply, as the length and the result in
   its header and the bytes which follow. *)
Record reply := Reply { rp_length : Z; rp_data : Z; rp_bytes : list byte }.
Definition cmd_get_lvb (data2 : Z) (r : option held) (mem : bool) : option reply :=
  match res_get_lvb r (i32 data2) mem with
  | OverRead => None
  | GetRes rv lvb lvblen =>
      Some (Reply (u32 (HDR + lvblen)) (u32 rv)
             (match lvb with Some l => l | None => [] end))
  end.

(* client.c:1449-1483  sanlock_set_lvb: what is put in the header and sent.
   None: refused by the library. *)
Definition client_set_lvb (buf : list byte) (lvblen : Z) : option (Z * wire) :=
  if lvblen =? 0 then None
  else Some (u32 (HDR + (RES_SIZE + lvblen)), Wire (take (Z.to_nat lvblen) buf) true).

(* client.c:1485-1541  sanlock_get_lvb: the data2 which is sent, and what is
   done with the reply; the connection stays open until the client closes it. *)
Definition client_get_data2 : Z := 0.
Inductive got := GotRv (rv : Z) (buf : list byte) | ClientWaits.
Definition client_get_lvb (rp : reply) (buf : list byte) (lvblen : Z) (mem : bool) : got :=
  let len := i32 (rp_length rp - HDR) in
  if len =? 0 then GotRv (i32 (rp_data rp)) buf
  else if (len <? 0) || negb mem then GotRv (- ENOMEM) buf
  else match recv (Wire (rp_bytes rp) true) len with
       | Got l =>
           let n := if lvblen <? len then lvblen else len in
           GotRv (i32 (rp_data rp)) (copy_over (take (Z.to_nat n) l) buf)
       | Short => GotRv (-1) buf
       | Waits => ClientWaits
       end.
