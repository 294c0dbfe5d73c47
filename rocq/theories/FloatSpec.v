(** Specification of half-precision values, independent of the circuits. *)
From Coq Require Import ZArith.
Open Scope Z_scope.

(** Non-negative finite halves. *)
Definition finite (x : Z) : Prop := 0 <= x < 31744.

(** Value of a non-negative finite half in units of 2^-24. *)
Definition hval (x : Z) : Z :=
  let e := x / 1024 in let f := x mod 1024 in
  if e =? 0 then f else (1024 + f) * 2 ^ (e - 1).

(** [r] is the half nearest to [v] (in units of 2^-24 / k) towards zero: [r] is not above it
    and the next encoding is. *)
Definition rounds_down (r v k : Z) : Prop := hval r * k <= v < hval (r + 1) * k.

(** Signed value of any finite half (bit 15 is the sign), in units of 2^-24. *)
Definition sval (x : Z) : Z := if Z.testbit x 15 then - hval (x mod 32768) else hval (x mod 32768).
