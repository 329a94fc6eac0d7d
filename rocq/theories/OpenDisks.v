(* Opening the disks of a lease: src/diskio.c:174-192 set_disk_properties, 194-204
   close_disks, 233-274 open_disks_fd, 282-323 open_disk, 331-373 open_disks (with
   majority_disks of Majority.v).
   The answers of open, fstat and the probe of one disk are one entry; the opens and
   closes are recorded in order. *)
From Coq Require Import List NArith ZArith Lia Bool Arith.
From Verif Require Import Majority.
Import ListNotations.
Open Scope Z_scope.

Record disk := mkDisk { d_fd : Z; d_ss : N; d_off : N }.
(* the descriptor and what fstat and the probe say: an error number, a regular
   file, a device with its sector size, or a device the probe fails for *)
Inductive kind := StatErr (e : Z) | Regular | Device (ss : N) | NoProbe.
Inductive opened := OpenErr (e : Z) | OpenOk (fd : Z) (k : kind).
Inductive fdop := Open (fd : Z) | Close (fd : Z).

(* 194-204 *)
Fixpoint close_disks (ds : list disk) : list disk * list fdop :=
  match ds with
  | [] => ([], [])
  | d :: r =>
      let (r', l) := close_disks r in
      if d_fd d =? -1 then (d :: r', l) else (mkDisk (-1) (d_ss d) (d_off d) :: r', Close (d_fd d) :: l)
  end.

(* 282-323; errno is positive *)
Definition open_disk (d : disk) (o : opened) : disk * Z * list fdop :=
  match o with
  | OpenErr e => (d, if 0 <=? - e then -1 else - e, [])
  | OpenOk fd k =>
      match k with
      | StatErr e => (d, if 0 <=? - e then -1 else - e, [Open fd; Close fd])
      | Regular => (mkDisk fd 512 (d_off d), 0, [Open fd])
      | Device ss => (mkDisk fd ss (d_off d), 0, [Open fd])
      | NoProbe => (d, -1, [Open fd; Close fd])
      end
  end.

(* 338-361: the disks, the number of opens, rv, whether an open descriptor was
   found; ss is only used for a message *)
Fixpoint open_loop (ds : list disk) (os : list opened) (rv : Z) : list disk * nat * Z * bool * list fdop :=
  match ds with
  | [] => ([], O, rv, false, [])
  | d :: r =>
      if negb (d_fd d =? -1) then (d :: r, O, -39, true, [])
      else
        let '(d', err, l) := open_disk d (hd (OpenErr 5) os) in
        let '(r', n, rv', bad, l') := open_loop r (tl os) (if err <? 0 then err else rv) in
        (d' :: r', if err <? 0 then n else S n, rv', bad, l ++ l')
  end.

(* 331-373 *)
Definition open_disks (ds : list disk) (os : list opened) : list disk * Z * list fdop :=
  let '(ds', n, rv, bad, l) := open_loop ds os (-1) in
  if bad || negb (majority_disks (Z.of_nat (length ds)) (Z.of_nat n)) then
    let (ds'', l') := close_disks ds' in (ds'', rv, l ++ l')
  else (ds', 0, l).

(* 233-274: without fstat and probe *)
Fixpoint open_fd_loop (ds : list disk) (os : list opened) (rv : Z) : list disk * nat * Z * bool * list fdop :=
  match ds with
  | [] => ([], O, rv, false, [])
  | d :: r =>
      if negb (d_fd d =? -1) then (d :: r, O, -1, true, [])
      else
        match hd (OpenErr 5) os with
        | OpenErr e => let '(r', n, rv', bad, l') := open_fd_loop r (tl os) (- e) in (d :: r', n, rv', bad, l')
        | OpenOk fd _ =>
            let '(r', n, rv', bad, l') := open_fd_loop r (tl os) rv in
            (mkDisk fd (d_ss d) (d_off d) :: r', S n, rv', bad, Open fd :: l')
        end
  end.
Definition open_disks_fd (ds : list disk) (os : list opened) : list disk * Z * list fdop :=
  let '(ds', n, rv, bad, l) := open_fd_loop ds os (-1) in
  if bad || negb (majority_disks (Z.of_nat (length ds)) (Z.of_nat n)) then
    let (ds'', l') := close_disks ds' in (ds'', rv, l ++ l')
  else (ds', 0, l).
