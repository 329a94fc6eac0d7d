(* get_rand: src/main.c:1459-1474, src/direct_lib.c:85-90, and the delay before a ballot or a shared acquire is tried
   again: src/paxos_lease.c:2097-2105, src/resource.c:1844.
   random() gives 0 .. RAND_MAX = 2^31 - 1.  float has 24 bits, rounds to the nearest, ties to even; the operand rv is
   converted to float, the product is a float; RAND_MAX+1.0 is a double and the division by 2^31 is exact.
   b - a + 1 that does not fit an int is undefined in C and not modelled. *)
From Coq Require Import ZArith Bool.
Open Scope Z_scope.

(* a number >= 0 as a float *)
Definition flt (z : Z) : Z :=
  let e := Z.log2 z - 23 in
  if e <=? 0 then z
  else
    let q := z / 2 ^ e in
    let r := z mod 2 ^ e in
    let h := 2 ^ (e - 1) in
    (if (h <? r) || ((r =? h) && Z.odd q) then q + 1 else q) * 2 ^ e.
(* 1473 *)
Definition get_rand (a b rv : Z) : Z := a + flt (flt (b - a + 1) * flt rv) / 2 ^ 31.
(* paxos_lease.c:2098-2105 *)
Definition retry_delay (rv : Z) : Z := get_rand 0 1000000 rv.
