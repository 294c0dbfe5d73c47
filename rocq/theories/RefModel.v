(** Model of the Python reference functions of the test benches.
    /repo/litevideo/csc/test/common.py:62-121 (packing), 192-233 (half floats),
    /repo/litevideo/float_arithmetic/test/common.py:70-86 and float_arithmetic/test/float_conv.py:8-24.
    Strings of binary digits are lists of booleans, first digit first. *)
From Coq Require Import ZArith List Bool Arith.
Import ListNotations.
Open Scope Z_scope.

(** bin(x)[2:], str.zfill, int(s, 2), the slice s[a:b]. *)
Fixpoint bin_pos (p : positive) : list bool :=
  match p with xH => [true] | xO q => bin_pos q ++ [false] | xI q => bin_pos q ++ [true] end.
Definition bin (x : Z) : list bool := match x with Zpos p => bin_pos p | _ => [false] end.
Definition zfill (n : nat) (s : list bool) : list bool := repeat false (n - length s) ++ s.
Definition int2 (s : list bool) : Z := fold_left (fun a (b : bool) => 2 * a + (if b then 1 else 0)) s 0.
Definition sub (a b : nat) (s : list bool) : list bool := firstn (b - a) (skipn a s).

(** The loop of csc/test/common.py:205-208: position of the first '1'; the loop of the code
    always finds one because x is not 0. *)
Fixpoint first1 (s : list bool) : nat := match s with [] => O | b :: r => if b then O else S (first1 r) end.
(** int2float, csc/test/common.py:192-215, for x >= 0. *)
Definition int2float (x : Z) : Z :=
  if x =? 0 then 0
  else
    let y := zfill 8 (bin x) in
    let shift_val := first1 y in
    let exp := 15 - 1 - Z.of_nat shift_val in
    let frac := rev (zfill 10 (rev (skipn (S shift_val) y))) in
    int2 ([false] ++ zfill 5 (bin exp) ++ frac).
(** float2int, csc/test/common.py:217-233; None: Python raises an exception (negative shift). *)
Definition float2int (x : Z) : option Z :=
  if x =? 0 then Some 0
  else
    let y := zfill 16 (bin x) in
    let exp := sub 1 6 y in
    let frac := true :: sub 6 16 y in
    let k := 17 - int2 exp in
    if k <? 0 then None else Some (int2 frac / 2 ^ k).
(** binint2float, float_arithmetic/test/common.py:70-86: the result is a multiple of 2^-24,
    here in units of 2^-24; all numbers on the way are exact in double precision. *)
Definition binint2float (x : Z) : Z :=
  let xs := zfill 16 (bin x) in
  let fracn := int2 (true :: sub 6 16 xs) in
  let expn := int2 (sub 1 6 xs) - 15 in
  let '(expn, fracn) := if expn =? - 15 then (- 14, int2 (false :: sub 6 16 xs)) else (expn, fracn) in
  let signv := int2 (sub 0 1 xs) in
  (-1) ^ signv * 2 ^ (expn + 14) * fracn.

(** pack_rgb and pack_ycbcr, csc/test/common.py:62-79: three components, the first on top;
    pack_rgb16f (81-88) is the same with 16 bits.  The index runs over the length of the first
    list; the lists are equally long. *)
Fixpoint pack (w : Z) (l : list (Z * Z * Z)) : list Z :=
  match l with
  | [] => []
  | (a, b, c) :: r =>
      Z.lor (Z.lor (Z.shiftl (Z.land a (Z.ones w)) (2 * w)) (Z.shiftl (Z.land b (Z.ones w)) w)) (Z.shiftl (Z.land c (Z.ones w)) 0) :: pack w r
  end.
(** unpack_rgb, unpack_ycbcr, unpack_rgb16f, 91-121. *)
Definition unpack (w : Z) (l : list Z) : list (Z * Z * Z) :=
  map (fun d => (Z.land (Z.shiftr d (2 * w)) (Z.ones w), Z.land (Z.shiftr d w) (Z.ones w), Z.land (Z.shiftr d 0) (Z.ones w))) l.
