(* C74: the value block over the socket.

   What sanlock_set_lvb was given is what sanlock_get_lvb gives back; a refused
   request changes nothing; neither side reads or writes outside the block and
   the buffer, and nobody is left waiting for bytes that were announced but
   not sent. *)
Require Import List ZArith Lia Bool.
From Verif Require Import LvbMsg.
Import ListNotations.
Open Scope Z_scope.

(* ---- Specification ---- *)

(* a held resource with a value block of the size of its sector *)
Definition sound (r : option held) : Prop :=
  match r with
  | None => True
  | Some h => (h_sector h = 512 \/ h_sector h = 4096) /\
      match h_lvb h with None => True | Some b => Z.of_nat (length b) = h_sector h end
  end.

Definition value (r : option held) : option (list byte) :=
  match r with Some h => h_lvb h | None => None end.

(* byte i of a buffer *)
Definition at_ (l : list byte) (i : Z) : option byte := nth_error l (Z.to_nat i).

(* a reply announces exactly the bytes that follow *)
Definition consistent (rp : reply) : Prop := rp_length rp = HDR + Z.of_nat (length (rp_bytes rp)).

(* The full statement: whatever a client asks for, the reply is made from the
   block only and announces what is sent. *)
Definition C74_statement : Prop := forall r data2 mem, sound r -> 0 <= data2 < 2 ^ 32 ->
  exists rp, cmd_get_lvb data2 r mem = Some rp /\ consistent rp.

(* ---- proofs ---- *)
Lemma take_firstn : forall n l, take n l = firstn n l.
Proof. induction n as [|n IH]; intros [|x l]; cbn; [..|rewrite IH]; reflexivity. Qed.
Lemma take_length : forall n l, (n <= length l)%nat -> length (take n l) = n.
Proof. intros n l H. rewrite take_firstn. apply firstn_length_le. exact H. Qed.

Lemma i32_small : forall x, 0 <= x < 2 ^ 31 -> i32 x = x.
Proof.
  intros x H. unfold i32. rewrite Z.mod_small by lia.
  destruct (Z.ltb_spec x (2 ^ 31)); lia.
Qed.
Lemma i32_neg : forall x, - 2 ^ 31 <= x < 0 -> i32 (u32 x) = x.
Proof.
  intros x H. unfold i32, u32. rewrite Z.mod_mod by lia.
  replace (x mod 2 ^ 32) with (x + 2 ^ 32).
  - destruct (Z.ltb_spec (x + 2 ^ 32) (2 ^ 31)); lia.
  - apply (Z.mod_unique x (2 ^ 32) (-1)); lia.
Qed.
Lemma u32_small : forall x, 0 <= x < 2 ^ 32 -> u32 x = x.
Proof. intros x H. apply Z.mod_small; lia. Qed.

(* The whole exchange as a caller sees it. *)
Definition do_set (r : option held) (buf : list byte) (lvblen : Z) (mem : bool) : set_out :=
  match client_set_lvb buf lvblen with
  | None => SetReply (- EINVAL) r
  | Some (length, w) => cmd_set_lvb length w mem r
  end.
Definition do_get (r : option held) (buf : list byte) (lvblen : Z) (mem cmem : bool) : option got :=
  match cmd_get_lvb client_get_data2 r mem with
  | None => None
  | Some rp => Some (client_get_lvb rp buf lvblen cmem)
  end.

(* Setting: when the value fits, the first bytes of the block become the
   value, the others stay, and it is marked to be written; otherwise nothing
   changes and the caller is told.  The set is answered in every case. *)
Theorem C74_set : forall r buf lvblen mem,
  sound r -> 0 <= lvblen <= Z.of_nat (length buf) -> lvblen < 2 ^ 31 - 160 ->
  exists rv r', do_set r buf lvblen mem = SetReply rv r' /\ sound r' /\
    (rv = 0 ->
       exists h old new, r = Some h /\ h_lvb h = Some old /\ r' = Some (Held (Some new) (h_sector h) true) /\
         0 < lvblen <= h_sector h /\ length new = length old /\
         forall i, 0 <= i -> at_ new i = if i <? lvblen then at_ buf i else at_ old i) /\
    (rv <> 0 -> r' = r) /\
    (value r <> None -> mem = true ->
       (rv = 0 <-> exists h, r = Some h /\ 0 < lvblen <= h_sector h)) /\
    (r = None -> rv <> 0).
Proof.
  intros r buf lvblen mem Hs Hb Hmax. unfold do_set, client_set_lvb.
  destruct (Z.eqb_spec lvblen 0) as [->|Hne].
  { exists (- EINVAL), r. split; [reflexivity|]. split; [exact Hs|].
    split; [discriminate|]. split; [reflexivity|]. split.
    - intros _ _. split; [discriminate|]. intros [h [_ [H _]]]. lia.
    - discriminate. }
  assert (El : i32 (u32 (HDR + (RES_SIZE + lvblen)) - HDR - RES_SIZE) = lvblen).
  { unfold HDR, RES_SIZE. rewrite u32_small by lia.
    replace (32 + (128 + lvblen) - 32 - 128) with lvblen by lia. apply i32_small. lia. }
  unfold cmd_set_lvb. rewrite El.
  destruct (Z.ltb_spec MAX_LVB lvblen) as [Hbig|Hbig].
  { exists (- E2BIG), r. split; [reflexivity|]. split; [exact Hs|].
    split; [discriminate|]. split; [reflexivity|]. split.
    - intros Hv _. split; [discriminate|]. intros [h [-> [_ H]]].
      destruct Hs as [Hs _]. unfold MAX_LVB in Hbig. lia.
    - discriminate. }
  destruct (Z.ltb_spec lvblen 0) as [Hneg|_]; [lia|]. cbn [orb].
  destruct mem; cbn [negb].
  2:{ exists (- ENOMEM), r. split; [reflexivity|]. split; [exact Hs|].
      split; [discriminate|]. split; [reflexivity|]. split; [discriminate|discriminate]. }
  unfold recv. cbn [w_bytes w_open].
  assert (Ht : length (take (Z.to_nat lvblen) buf) = Z.to_nat lvblen) by (apply take_length; lia).
  rewrite Ht. destruct (Z.ltb_spec (Z.of_nat (Z.to_nat lvblen)) lvblen) as [H|_]; [lia|].
  assert (Htt : take (Z.to_nat lvblen) (take (Z.to_nat lvblen) buf) = take (Z.to_nat lvblen) buf).
  { rewrite !take_firstn, firstn_firstn, Nat.min_id. reflexivity. }
  rewrite Htt. unfold res_set_lvb.
  destruct r as [h|].
  2:{ exists (- ENOENT), None. split; [reflexivity|]. split; [exact I|].
      split; [discriminate|]. split; [reflexivity|].
      split; [intros H; elim H; reflexivity|discriminate]. }
  destruct Hs as [Hsec Hblk]. destruct (h_lvb h) as [old|] eqn:Eh.
  2:{ exists (- EINVAL), (Some h). split; [reflexivity|]. split; [split; [exact Hsec|rewrite Eh; exact I]|].
      split; [discriminate|]. split; [reflexivity|].
      split; [intros H; elim H; cbn; exact Eh|discriminate]. }
  rewrite u32_small by lia.
  destruct (Z.ltb_spec (h_sector h) lvblen) as [Hlt|Hle].
  { exists (- E2BIG), (Some h). split; [reflexivity|]. split; [split; [exact Hsec|rewrite Eh; exact Hblk]|].
    split; [discriminate|]. split; [reflexivity|]. split; [|discriminate].
    intros _ _. split; [discriminate|]. intros [h' [Eq [_ H]]]. injection Eq as <-. lia. }
  set (new := copy_over (take (Z.to_nat lvblen) buf) old).
  assert (Hnl : length new = length old).
  { unfold new, copy_over. rewrite app_length, skipn_length, Ht. lia. }
  exists 0, (Some (Held (Some new) (h_sector h) true)). split; [reflexivity|].
  split; [split; [exact Hsec|cbn; lia]|].
  split; [|split; [congruence|split; [|discriminate]]].
  - intros _. exists h, old, new. split; [reflexivity|]. split; [exact Eh|]. split; [reflexivity|].
    split; [lia|]. split; [exact Hnl|]. intros i Hi. unfold at_, new, copy_over. rewrite Ht.
    destruct (Z.ltb_spec i lvblen).
    + rewrite nth_error_app1 by lia. rewrite take_firstn.
      rewrite <- (firstn_skipn (Z.to_nat lvblen) buf) at 2.
      rewrite nth_error_app1; [reflexivity|]. rewrite firstn_length_le; lia.
    + rewrite nth_error_app2 by lia. rewrite Ht.
      rewrite <- (firstn_skipn (Z.to_nat lvblen) old) at 2.
      rewrite nth_error_app2; rewrite firstn_length_le by lia; [reflexivity|lia].
  - intros _ _. split; [|reflexivity]. intros _. exists h. split; [reflexivity|lia].
Qed.

(* Getting with the library: the caller is answered; on success its buffer
   begins with the block, as much of it as fits, and the rest of the buffer
   is as it was; otherwise the buffer is as it was. *)
Theorem C74_get_partial : forall r buf lvblen mem cmem,
  sound r -> 0 < lvblen <= Z.of_nat (length buf) ->
  exists rv buf', do_get r buf lvblen mem cmem = Some (GotRv rv buf') /\
    length buf' = length buf /\
    (rv = 0 <-> (exists b, value r = Some b) /\ mem = true /\ cmem = true) /\
    (rv <> 0 -> buf' = buf) /\
    (forall b, rv = 0 -> value r = Some b ->
       forall i, 0 <= i ->
         at_ buf' i = if i <? Z.min lvblen (Z.of_nat (length b)) then at_ b i else at_ buf i).
Proof.
  intros r buf lvblen mem cmem Hs Hl. unfold do_get, cmd_get_lvb, client_get_data2.
  rewrite i32_small by lia. unfold res_get_lvb.
  assert (Hfail : forall e, 0 < e < 200 ->
    client_get_lvb (Reply (u32 (HDR + 0)) (u32 (- e)) []) buf lvblen cmem = GotRv (- e) buf).
  { intros e He. unfold client_get_lvb. cbn [rp_length rp_data]. unfold HDR.
    replace (u32 (32 + 0) - 32) with 0 by reflexivity.
    rewrite i32_small by lia. cbn [Z.eqb]. rewrite i32_neg by lia. reflexivity. }
  destruct r as [h|].
  2:{ exists (- ENOENT), buf. rewrite Hfail by (unfold ENOENT; lia). split; [reflexivity|].
      split; [reflexivity|]. split; [split; [discriminate|intros [[b H] _]; discriminate]|].
      split; [reflexivity|]. intros b H; discriminate. }
  destruct Hs as [Hsec Hblk]. cbn [value].
  destruct (h_lvb h) as [b|] eqn:Eh.
  2:{ exists (- EINVAL), buf. rewrite Hfail by (unfold EINVAL; lia). split; [reflexivity|].
      split; [reflexivity|]. split; [split; [discriminate|intros [[b H] _]; discriminate]|].
      split; [reflexivity|]. intros b H; discriminate. }
  cbn [Z.eqb]. destruct (Z.ltb_spec (h_sector h) 0) as [H|_]; [lia|]. cbn [orb].
  destruct mem; cbn [negb].
  2:{ exists (- ENOMEM), buf. rewrite Hfail by (unfold ENOMEM; lia). split; [reflexivity|].
      split; [reflexivity|]. split; [split; [discriminate|intros [_ [H _]]; discriminate]|].
      split; [reflexivity|]. intros b' H; discriminate. }
  destruct (Z.ltb_spec (Z.of_nat (length b)) (h_sector h)) as [H|_]; [lia|].
  assert (Eb : take (Z.to_nat (h_sector h)) b = b).
  { rewrite take_firstn, firstn_all2; [reflexivity|lia]. }
  rewrite Eb. unfold client_get_lvb. cbn [rp_length rp_data rp_bytes]. unfold HDR.
  rewrite u32_small by lia. replace (32 + h_sector h - 32) with (h_sector h) by lia.
  rewrite i32_small by lia.
  destruct (Z.eqb_spec (h_sector h) 0) as [H|_]; [lia|].
  destruct (Z.ltb_spec (h_sector h) 0) as [H|_]; [lia|]. cbn [orb].
  destruct cmem; cbn [negb].
  2:{ exists (- ENOMEM), buf. split; [reflexivity|]. split; [reflexivity|].
      split; [split; [discriminate|intros [_ [_ H]]; discriminate]|].
      split; [reflexivity|]. intros b' H; discriminate. }
  unfold recv. cbn [w_bytes w_open].
  destruct (Z.ltb_spec (Z.of_nat (length b)) (h_sector h)) as [H|_]; [lia|]. rewrite Eb.
  set (n := if lvblen <? h_sector h then lvblen else h_sector h).
  assert (Hn : n = Z.min lvblen (Z.of_nat (length b))).
  { unfold n. destruct (Z.ltb_spec lvblen (h_sector h)); lia. }
  assert (Ht : length (take (Z.to_nat n) b) = Z.to_nat n) by (apply take_length; lia).
  eexists 0, _. split; [reflexivity|].
  assert (Hlen : length (copy_over (take (Z.to_nat n) b) buf) = length buf).
  { unfold copy_over. rewrite app_length, skipn_length, Ht. lia. }
  split; [exact Hlen|].
  split; [split; [intros _; split; [exists b; reflexivity|split; reflexivity]|reflexivity]|].
  split; [congruence|]. intros b' _ Eb' i Hi. injection Eb' as <-. rewrite <- Hn.
  unfold at_, copy_over. rewrite Ht. destruct (Z.ltb_spec i n).
  + rewrite nth_error_app1 by lia. rewrite take_firstn.
    rewrite <- (firstn_skipn (Z.to_nat n) b) at 2.
    rewrite nth_error_app1; [reflexivity|]. rewrite firstn_length_le; lia.
  + rewrite nth_error_app2 by lia. rewrite Ht.
    rewrite <- (firstn_skipn (Z.to_nat n) buf) at 2.
    rewrite nth_error_app2; rewrite firstn_length_le by lia; [reflexivity|lia].
Qed.

(* what was set is what is read, whatever was in the block before *)
Theorem C74_round_trip : forall r buf n mem r' out k cmem,
  sound r -> 0 <= n <= Z.of_nat (length buf) -> n < 2 ^ 31 - 160 ->
  do_set r buf n mem = SetReply 0 r' ->
  0 < k <= Z.of_nat (length out) ->
  forall rv out', do_get r' out k true cmem = Some (GotRv rv out') -> rv = 0 ->
  forall i, 0 <= i < Z.min n k -> at_ out' i = at_ buf i.
Proof.
  intros r buf n mem r' out k cmem Hs Hn Hmax Eset Hk rv out' Eget Hrv i Hi.
  destruct (C74_set r buf n mem Hs Hn Hmax) as [rv0 [r0 [E0 [Hs' [Hok _]]]]].
  rewrite Eset in E0. injection E0 as <- <-.
  destruct (Hok eq_refl) as [h [old [new [_ [_ [-> [Hfit [Hlen Hat]]]]]]]].
  destruct (C74_get_partial _ out k true cmem Hs' Hk) as [rv1 [out1 [E1 [_ [_ [_ Hv]]]]]].
  rewrite Eget in E1. injection E1 as <- <-.
  rewrite (Hv new Hrv eq_refl i ltac:(lia)). destruct Hs' as [_ Hbl]. cbn in Hbl.
  destruct (Z.ltb_spec i (Z.min k (Z.of_nat (length new)))); [|lia].
  rewrite (Hat i ltac:(lia)). destruct (Z.ltb_spec i n); [reflexivity|lia].
Qed.

(* Any client: the request is harmless when it asks for no more than the
   block; the reply is consistent when the request succeeds or no length was
   given. *)
Theorem C74_any_client_partial : forall r data2 mem, sound r -> 0 <= data2 < 2 ^ 32 ->
  (forall b, value r = Some b -> data2 <= Z.of_nat (length b) \/ 2 ^ 31 <= data2) ->
  exists rp, cmd_get_lvb data2 r mem = Some rp /\
    (rp_data rp = 0 \/ data2 = 0 -> consistent rp) /\
    (rp_bytes rp <> [] -> exists b n, value r = Some b /\ rp_bytes rp = firstn n b).
Proof.
  intros r data2 mem Hs Hd Hfit. unfold cmd_get_lvb, res_get_lvb.
  assert (Hneg : forall e l, 0 < e < 200 -> i32 data2 = l ->
    exists rp, Some (Reply (u32 (HDR + l)) (u32 (- e)) []) = Some rp /\
      (rp_data rp = 0 \/ data2 = 0 -> consistent rp) /\
      (rp_bytes rp <> [] -> exists b n, value r = Some b /\ rp_bytes rp = firstn n b)).
  { intros e l He El. eexists; split; [reflexivity|]. split.
    - intros [H|H].
      + exfalso. cbn [rp_data] in H. unfold u32 in H.
        replace ((- e) mod 2 ^ 32) with (2 ^ 32 - e) in H; [lia|].
        apply (Z.mod_unique (- e) (2 ^ 32) (-1)); lia.
      + subst data2. rewrite i32_small in El by lia. subst l. reflexivity.
    - intros H; elim H; reflexivity. }
  destruct r as [h|]; [|apply Hneg; [unfold ENOENT; lia|reflexivity]].
  destruct Hs as [Hsec Hblk]. cbn [value] in *.
  destruct (h_lvb h) as [b|] eqn:Eh; [|apply Hneg; [unfold EINVAL; lia|reflexivity]].
  specialize (Hfit b eq_refl).
  set (len := if i32 data2 =? 0 then h_sector h else i32 data2).
  destruct ((len <? 0) || negb mem) eqn:E; [apply Hneg; [unfold ENOMEM; lia|reflexivity]|].
  apply orb_false_elim in E. destruct E as [E1 _]. apply Z.ltb_ge in E1.
  assert (Hlen : len <= Z.of_nat (length b)).
  { unfold len in *. destruct (Z.eqb_spec (i32 data2) 0); [lia|].
    destruct Hfit as [Hf|Hf]; [rewrite i32_small by lia; exact Hf|].
    exfalso. unfold i32 in E1. rewrite Z.mod_small in E1 by lia.
    destruct (Z.ltb_spec data2 (2 ^ 31)); lia. }
  destruct (Z.ltb_spec (Z.of_nat (length b)) len) as [H|_]; [lia|].
  eexists; split; [reflexivity|]. split.
  - intros _. unfold consistent. cbn [rp_length rp_bytes]. unfold HDR.
    rewrite take_length by lia. rewrite u32_small; lia.
  - intros _. exists b, (Z.to_nat len). split; [reflexivity|]. cbn [rp_bytes]. apply take_firstn.
Qed.

(* ---- the full statement fails ---- *)
Definition ex_block : list byte := repeat 7 512.
Definition ex_held : option held := Some (Held (Some ex_block) 512 false).

Lemma ex_sound : sound ex_held.
Proof. split; [left; reflexivity|vm_compute; reflexivity]. Qed.

(* asking for 4096 bytes of a block of 512 reads past it *)
Theorem C74_refuted : ~ C74_statement.
Proof.
  intros H. destruct (H ex_held 4096 true ex_sound ltac:(lia)) as [rp [E _]].
  vm_compute in E. discriminate.
Qed.

(* asking for 512 bytes of a resource which is not held gets an error which
   announces 512 bytes that are never sent; a client that believes the header
   waits for them *)
Theorem C74_announce_refuted : exists rp, cmd_get_lvb 512 None true = Some rp /\
  ~ consistent rp /\
  forall buf n, client_get_lvb rp buf n true = ClientWaits.
Proof.
  eexists; split; [vm_compute; reflexivity|]. split.
  - unfold consistent. cbn. discriminate.
  - intros buf n. vm_compute. reflexivity.
Qed.

Example C74_nonvacuous :
  exists r', do_set ex_held [1; 2; 3; 4] 3 true = SetReply 0 r' /\
    do_get r' [9; 9; 9; 9; 9; 9] 5 true true = Some (GotRv 0 [1; 2; 3; 7; 7; 9]) /\
    do_set ex_held (repeat 1 600) 600 true = SetReply (- E2BIG) ex_held /\
    do_set None [1] 1 true = SetReply (- ENOENT) None /\
    do_get None [9; 9] 2 true true = Some (GotRv (- ENOENT) [9; 9]).
Proof. eexists; repeat split; vm_compute; reflexivity. Qed.

Print Assumptions C74_set.
Print Assumptions C74_get_partial.
Print Assumptions C74_round_trip.
Print Assumptions C74_any_client_partial.
Print Assumptions C74_refuted.
Print Assumptions C74_announce_refuted.
