(* src/client.c:738-793 sanlock_test_resource_owners *)
From Coq Require Import List NArith ZArith Lia Bool.
Import ListNotations.
Open Scope N_scope.

(* struct sanlk_host, src/sanlock_admin.h: the members used *)
Record host := mkHost { h_id : N; h_gen : N; h_flags : N }.

(* src/sanlock_admin.h: 27-32 *)
Definition SANLK_HOST_MASK : N := 0xF.
Definition SANLK_HOST_UNKNOWN : N := 1.
Definition SANLK_HOST_FREE : N := 2.
Definition SANLK_HOST_LIVE : N := 3.
Definition SANLK_HOST_FAIL : N := 4.
Definition SANLK_HOST_DEAD : N := 5.

Inductive test_rv := TestEINVAL | TestOk (fail : bool).

(* one owner: None = return -EINVAL, Some b = continue with fail |= b *)
Definition test_owner (owner : host) (hosts : list host) : option bool :=
  match find (fun h => h_id owner =? h_id h) hosts with
  | None => Some false
  | Some h =>
      if h_gen owner <? h_gen h then Some false
      else if h_gen h <? h_gen owner then None
      else let f := N.land (h_flags h) SANLK_HOST_MASK in
           if (f =? SANLK_HOST_FREE) || (f =? SANLK_HOST_DEAD) then Some false
           else if (f =? SANLK_HOST_LIVE) || (f =? SANLK_HOST_FAIL) || (f =? SANLK_HOST_UNKNOWN)
                then Some true
           else None
  end.

Fixpoint test_owners (owners hosts : list host) (fail : bool) : test_rv :=
  match owners with
  | [] => TestOk fail
  | o :: r => match test_owner o hosts with
              | None => TestEINVAL
              | Some b => test_owners r hosts (fail || b)
              end
  end.

Definition test_resource_owners (owners hosts : list host) : test_rv :=
  test_owners owners hosts false.
