(* Host events: src/lockspace.c:1805-1885 (lockspace_set_event), 266-293
   (host_status_set_bit), 331-360 (create_bitmap_and_extra, see Bitmap.v),
   482-522 (delivery in check_other_leases).  The lockspace lookup is
   outside: an operation applies to one joined lockspace. *)
From Coq Require Import List NArith ZArith Lia Bool ZifyBool ZifyN.
From Verif Require Import Bytes Crc Bitmap.
Import ListNotations.
Open Scope N_scope.

(* struct sanlk_host_event *)
Record hevent := mkHe { he_host_id : N; he_generation : N; he_event : N; he_data : N }.
Definition he_zero : hevent := mkHe 0 0 0 0.

Record evstate := mkEv {
  ev_event : hevent;          (* sp->host_event *)
  ev_time : N;                (* sp->set_event_time *)
  ev_bits : list N;           (* sp->host_status[i].set_bit_time *)
  ev_gens : list N            (* sp->host_status[i].owner_generation *)
}.

(* src/sanlock_admin.h:542-546 *)
Record evflags := mkEf {
  ef_cur_generation : bool; ef_clear_hostid : bool; ef_clear_event : bool;
  ef_replace : bool; ef_all_hosts : bool }.

Inductive ev_rv := EvOk | EvEINVAL | EvEBUSY.

Definition set_bit (bits : list N) (host_id now : N) : list N :=
  upd_nth (N.to_nat (host_id - 1)) (fun _ => now) bits.

(* 1812-1840 generation fill, then 1842-1884; secs = sp->set_bitmap_seconds *)
Definition fill_generation (st : evstate) (fl : evflags) (he : hevent) : hevent :=
  if (he_generation he =? 0) && ef_cur_generation fl
  then mkHe (he_host_id he) (nth (N.to_nat (he_host_id he - 1)) (ev_gens st) 0) (he_event he) (he_data he)
  else he.

Definition do_set (st : evstate) (now : N) (fl : evflags) (he : hevent) : evstate :=
  let bits := set_bit (ev_bits st) (he_host_id he) now in
  let bits := if ef_all_hosts fl then map (fun _ => now) bits else bits in
  mkEv he now bits (ev_gens st).

Definition set_event (secs : N) (st : evstate) (now : N) (fl : evflags) (he0 : hevent)
  : ev_rv * evstate :=
  if (he_host_id he0 =? 0) || (DEFAULT_MAX_HOSTS <? he_host_id he0) then (EvEINVAL, st)
  else if N.of_nat (length (ev_bits st)) <? he_host_id he0 then (EvEINVAL, st)
  else
    let he := fill_generation st fl he0 in
    if ef_clear_event fl then (EvOk, mkEv he_zero now (ev_bits st) (ev_gens st))
    else if ef_clear_hostid fl then
      (EvOk, mkEv (ev_event st) (ev_time st) (set_bit (ev_bits st) (he_host_id he) 0) (ev_gens st))
    else if ef_replace fl then (EvOk, do_set st now fl he)
    else if (now - ev_time st <? secs) && negb (he_event (ev_event st) =? 0) &&
            negb (he_event he =? 0) && negb (he_event (ev_event st) =? he_event he)
    then (EvEBUSY, st)
    else (EvOk, do_set st now fl he).

(* a resource request notification (cmd.c:1083) *)
Definition request_bit (st : evstate) (now host_id : N) : evstate :=
  if (host_id =? 0) || (DEFAULT_MAX_HOSTS <? host_id) || (N.of_nat (length (ev_bits st)) <? host_id)
  then st
  else mkEv (ev_event st) (ev_time st) (set_bit (ev_bits st) host_id now) (ev_gens st).

(* a renewal: publishes the bitmap and the event *)
Definition publish (secs own : N) (st : evstate) (now : N) : evstate * (bytes * hevent) :=
  let (bits, bm) := create_bitmap own now secs 1 (ev_bits st) (zeros HOSTID_BITMAP_SIZE) in
  (mkEv (ev_event st) (ev_time st) bits (ev_gens st), (bm, ev_event st)).

(* what host h delivers to its processes after reading the published lease *)
Definition receives (h : N) (pub : bytes * hevent) : option (N * N * N) :=
  let (bm, he) := pub in
  if test_id_bit h bm && negb (he_event he =? 0)
  then Some (he_generation he, he_event he, he_data he) else None.

Inductive evop :=
| OpSet (now : N) (fl : evflags) (he : hevent)
| OpRequest (now host_id : N)
| OpRenew (now : N).

Definition ev_step (secs own : N) (st : evstate) (op : evop) : evstate :=
  match op with
  | OpSet now fl he => snd (set_event secs st now fl he)
  | OpRequest now h => request_bit st now h
  | OpRenew now => fst (publish secs own st now)
  end.

Definition ev_run (secs own : N) (st : evstate) (ops : list evop) : evstate :=
  fold_left (ev_step secs own) ops st.

Definition op_time (op : evop) : N :=
  match op with OpSet n _ _ => n | OpRequest n _ => n | OpRenew n => n end.

(* the daemon's start state for max_hosts hosts *)
Definition ev_init (max_hosts : nat) (gens : list N) : evstate :=
  mkEv he_zero 0 (repeat 0 max_hosts) gens.
