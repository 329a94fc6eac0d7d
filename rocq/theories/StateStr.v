(* The state string of several resources: src/client.c:2105-2139
   sanlock_args_to_state (state_to_args is in Strings.v).
   Simplified: malloc does not fail, and sanlock_res_to_str returns a string
   whenever it does not return an error. *)
From Coq Require Import List NArith ZArith Lia Bool Arith ZifyBool ZifyN ZifyNat.
From Verif Require Import Bytes Strings.
Import ListNotations.
Open Scope N_scope.

Inductive stres := TBad | TFail | TOk (s : bytes).

(* strcat into a buffer of cap bytes *)
Definition strcat (cap : nat) (acc add : bytes) : option bytes :=
  if Nat.ltb (length acc + length add) cap then Some (acc ++ add) else None.

(* 2117-2134; i = 0 for the first resource *)
Fixpoint state_join (cap : nat) (first : bool) (rs : list sres) (acc : bytes) : stres :=
  match rs with
  | [] => TOk acc
  | r :: rest =>
      match res_to_str r with
      | None => TFail
      | Some str =>
          if Nat.ltb (SANLK_MAX_RES_STR - 1) (length str) then TFail
          else match (if first then Some acc else strcat cap acc [SP]) with
               | None => TBad
               | Some a1 => match strcat cap a1 str with None => TBad | Some a2 => state_join cap false rest a2 end
               end
      end
  end.

(* 2112: res_count * (SANLK_MAX_RES_STR + 1) bytes *)
Definition args_to_state (rs : list sres) : stres :=
  state_join (length rs * (SANLK_MAX_RES_STR + 1)) true rs [].
