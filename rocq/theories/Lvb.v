(* The value block of resource leases.
   Code: src/resource.c:656-700 (read_lvb_block, write_lvb_block), 702-732 (res_set_lvb),
   734-771 (res_get_lvb), 1005-1135 (_release_token), 1491-1533 (convert_ex2sh_token),
   1962-1981 (acquire_token), 2285-2375 (resource_thread_release).

   Hosts 0..H-1 hold leases on shared storage, addressed in sectors.  Lease l begins at
   sector [base l] and has an area of [asz] sectors, of which the first [recs] are
   records (leader, requests, host blocks); its value block is sector [base l + 2002] of
   disk 0.  Mutual exclusion between hosts is taken for granted here (guards of EAcq and
   ESh2ex; properties C09-C11 and C29 are about it).  One resource per host and lease:
   further local shared holders use the same block without reading it. *)
From Coq Require Import List ZArith Lia Bool.
Import ListNotations.
Open Scope Z_scope.

Definition block := list Z.
Definition LVB_SECTOR : Z := 2002.              (* resource.c:658 *)

Record geom := mkGeom { hostsn : nat; base : nat -> Z; asz : Z; recs : Z; ssz : nat }.

Record hold := mkHold {
  h_ex : bool;               (* !(r->flags & R_SHARED) *)
  h_lvb : option block;      (* r->lvb *)
  h_flag : bool;             (* R_LVB_WRITE_RELEASE *)
  h_erase : bool;            (* R_ERASE_ALL *)
  h_rel : bool }.            (* on resources_rem with R_THREAD_RELEASE *)
(* HStuck: the resource is gone in memory but its release failed on disk *)
Inductive hslot := HNone | HHeld (x : hold) | HStuck (ex : bool).

Record lst := mkL {
  disk : Z -> block;
  holds : nat -> nat -> hslot;     (* host, lease *)
  pend : list (Z * block) }.       (* timed out writes that may still reach the disk *)
Definition linit (d : Z -> block) : lst := mkL d (fun _ _ => HNone) [].

Inductive wres := WOk | WErr | WTimeout.
Inductive rres := ROk | RTimeout | RErr.
Inductive cres := CvOk | CvEarly (* write_host_block failed *) | CvErase (* release_disk failed *).
Inductive ev :=
| EAcq (h l : nat) (ex want rdok : bool) (junk : block)   (* junk: the uninitialised buffer *)
| ESet (h l : nat) (v : block)
| EEx2sh (h l : nat) (w : wres) (c : cres)
| ESh2ex (h l : nat)
| ESh2exFail (h l : nat)
| ERelease (h l : nat) (w : wres) (r : rres)
| ECrash (h : nat)
| ERec (l : nat) (k : Z) (b : block)     (* a record of the lease is written *)
| EInit (l : nat)                        (* paxos_lease_init on an unheld lease *)
| ELand.                                 (* a timed out write reaches the disk *)

Definition lvb_sector (g : geom) (l : nat) : Z := base g l + LVB_SECTOR.
Definition set_disk (s : lst) (a : Z) (b : block) : lst :=
  mkL (fun x => if x =? a then b else disk s x) (holds s) (pend s).
Definition set_hold (s : lst) (h l : nat) (x : hslot) : lst :=
  mkL (disk s) (fun h' l' => if Nat.eqb h' h && Nat.eqb l' l then x else holds s h' l') (pend s).
Definition zeros (g : geom) : block := repeat 0 (ssz g).

(* other hosts' holds that forbid ours *)
Definition blocks (ex : bool) (x : hslot) : bool :=
  match x with HNone => false | HHeld y => ex || h_ex y | HStuck e => ex || e end.
Definition free_for (g : geom) (s : lst) (h l : nat) (ex : bool) : bool :=
  forallb (fun h' => Nat.eqb h' h || negb (blocks ex (holds s h' l))) (seq 0 (hostsn g)).
Definition unheld (g : geom) (s : lst) (l : nat) : bool :=
  forallb (fun h' => match holds s h' l with HNone => true | _ => false end) (seq 0 (hostsn g)).

(* write_lvb_block 682-700 *)
Definition write_lvb (g : geom) (s : lst) (l : nat) (o : option block) (w : wres) : lst :=
  match o with
  | None => s
  | Some b => match w with
              | WOk => set_disk s (lvb_sector g l) b
              | WErr => s
              | WTimeout => mkL (disk s) (holds s) (pend s ++ [(lvb_sector g l, b)])
              end
  end.
Definition wrote (o : option block) (w : wres) : bool :=   (* rv == 0 *)
  match o, w with None, _ => true | _, WOk => true | _, _ => false end.

(* memcpy(r->lvb, lvb, lvblen) *)
Definition overlay (v b : block) : block := v ++ skipn (length v) b.

Definition lstep (g : geom) (s : lst) (e : ev) : option (lst * option block) :=
  match e with
  | EAcq h l ex want rdok junk =>
    if negb (Nat.ltb h (hostsn g) && free_for g s h l ex) then None else
    match holds s h l with
    | HHeld _ => None
    | _ =>
      if want
      then let b := if rdok then disk s (lvb_sector g l) else junk in
           Some (set_hold s h l (HHeld (mkHold ex (Some b) false false false)), Some b)
      else Some (set_hold s h l (HHeld (mkHold ex None false false false)), None)
    end
  | ESet h l v =>
    match holds s h l with
    | HHeld x =>
      if h_rel x then None else
      match h_lvb x with
      | Some b => if Nat.leb (length v) (ssz g)
                  then Some (set_hold s h l (HHeld (mkHold (h_ex x) (Some (overlay v b)) true (h_erase x) (h_rel x))), None)
                  else None
      | None => None
      end
    | _ => None
    end
  | EEx2sh h l w c =>
    match holds s h l with
    | HHeld x =>
      if h_rel x || negb (h_ex x) then None else
      let s1 := if h_flag x then write_lvb g s l (h_lvb x) w else s in
      match c with
      | CvOk => Some (set_hold s1 h l (HHeld (mkHold false (h_lvb x) (h_flag x) (h_erase x) (h_rel x))), None)
      | CvEarly => Some (s1, None)
      | CvErase => Some (set_hold s1 h l (HHeld (mkHold (h_ex x) (h_lvb x) (h_flag x) true (h_rel x))), None)
      end
    | _ => None
    end
  | ESh2ex h l =>
    match holds s h l with
    | HHeld x => if h_rel x || h_ex x || negb (free_for g s h l true) then None
                 else Some (set_hold s h l (HHeld (mkHold true (h_lvb x) (h_flag x) (h_erase x) (h_rel x))), None)
    | _ => None
    end
  | ESh2exFail h l =>
    match holds s h l with
    | HHeld x => if h_rel x || h_ex x then None
                 else Some (set_hold s h l (HHeld (mkHold (h_ex x) (h_lvb x) (h_flag x) true (h_rel x))), None)
    | _ => None
    end
  | ERelease h l w r =>
    match holds s h l with
    | HHeld x =>
      let wr := negb (h_erase x) && h_ex x && h_flag x in
      let s1 := if wr then write_lvb g s l (h_lvb x) w else s in
      let f := if wr && wrote (h_lvb x) w then false else h_flag x in
      Some (set_hold s1 h l
              (match r with
               | ROk => HNone
               | RTimeout => HHeld (mkHold (h_ex x) (h_lvb x) f (h_erase x) true)
               | RErr => HStuck (h_ex x)
               end), None)
    | _ => None
    end
  | ECrash h => Some (mkL (disk s) (fun h' l' => if Nat.eqb h' h then HNone else holds s h' l') (pend s), None)
  | ERec l k b => if (0 <=? k) && (k <? recs g) then Some (set_disk s (base g l + k) b, None) else None
  | EInit l => if unheld g s l
               then Some (mkL (fun a => if (base g l <=? a) && (a <? base g l + asz g) then zeros g else disk s a) (holds s) (pend s), None)
               else None
  | ELand => match pend s with
             | (a, b) :: r => Some (set_disk (mkL (disk s) (holds s) r) a b, None)
             | [] => None
             end
  end.
(* the run and what each event showed *)
Fixpoint lrun (g : geom) (s : lst) (es : list ev) : option (lst * list (option block)) :=
  match es with
  | [] => Some (s, [])
  | e :: r => match lstep g s e with
              | Some (s1, o) => match lrun g s1 r with Some (s2, os) => Some (s2, o :: os) | None => None end
              | None => None
              end
  end.
