(** Reference formulas for colour conversion with any coefficients, in integer arithmetic ([/] is floor division),
    and the exact conversion with the documented coefficients. *)
From Coq Require Import ZArith.
From Verif Require Import CscModel CscSpec.
Open Scope Z_scope.

(** Coefficients with [cw] fractional bits, output components of [w] bits. *)
Definition lumaw (cw ca cb : Z) (p : rgb) : Z := (ca * (c_r p - c_g p) + cb * (c_b p - c_g p)) / 2 ^ cw + c_g p.
Definition ycc_formula (cw w ca cb cc cd : Z) (p : rgb) : ycc :=
  let l := lumaw cw ca cb p in
  {| c_y := clamp 0 (2 ^ w - 1) (l + 2 ^ w / 16);
     c_cb := clamp 0 (2 ^ w - 1) (cc * (c_b p - l) / 2 ^ cw + 2 ^ w / 2);
     c_cr := clamp 0 (2 ^ w - 1) (cd * (c_r p - l) / 2 ^ cw + 2 ^ w / 2) |}.
Definition rgb_formula (f w a b c d : Z) (q : ycc) : rgb :=
  let y := c_y q - 2 ^ w / 16 in
  let cb := c_cb q - 2 ^ w / 2 in
  let cr := c_cr q - 2 ^ w / 2 in
  {| c_r := clamp 0 (2 ^ w - 1) (y + a * cr / 2 ^ f);
     c_g := clamp 0 (2 ^ w - 1) (y + b * cb / 2 ^ f + c * cr / 2 ^ f);
     c_b := clamp 0 (2 ^ w - 1) (y + d * cb / 2 ^ f) |}.

(** [k] has [f] fractional bits and is the decimal [num/den] rounded down, up to the precision 2^-50 of the floats used
    to compute it: num/den - 2^-f - 2^-50 <= k/2^f <= num/den + 2^-50. *)
Definition close (f k num den : Z) : Prop :=
  2 ^ 50 * (num * 2 ^ f - den * k) <= den * (2 ^ 50 + 2 ^ f) /\ 2 ^ 50 * (den * k - num * 2 ^ f) <= den * 2 ^ f.

(** The exact conversion with the documented coefficients 0.1819, 0.0618, 0.5512, 0.6495 and the offsets 2^w/16, 2^w/2
    of a [w]-bit output, scaled by 10^4 and 10^8. *)
Definition exact_luma (p : rgb) : Z := 1819 * (c_r p - c_g p) + 618 * (c_b p - c_g p) + 10000 * c_g p.
Definition exact_yw (w : Z) (p : rgb) : Z := clamp 0 ((2 ^ w - 1) * 10 ^ 4) (exact_luma p + 2 ^ w / 16 * 10 ^ 4).
Definition exact_cbw (w : Z) (p : rgb) : Z := clamp 0 ((2 ^ w - 1) * 10 ^ 8) (5512 * (10000 * c_b p - exact_luma p) + 2 ^ w / 2 * 10 ^ 8).
Definition exact_crw (w : Z) (p : rgb) : Z := clamp 0 ((2 ^ w - 1) * 10 ^ 8) (6495 * (10000 * c_r p - exact_luma p) + 2 ^ w / 2 * 10 ^ 8).
(** The exact inverse: r = y + cr/0.6495, b = y + cb/0.5512, g = y - 0.0618/(0.5512*0.7563) cb - 0.1819/(0.6495*0.7563) cr,
    scaled by the denominators. *)
Definition exact_rw (w : Z) (q : ycc) : Z :=
  clamp 0 ((2 ^ w - 1) * 6495) (6495 * (c_y q - 2 ^ w / 16) + 10000 * (c_cr q - 2 ^ w / 2)).
Definition exact_bw (w : Z) (q : ycc) : Z :=
  clamp 0 ((2 ^ w - 1) * 5512) (5512 * (c_y q - 2 ^ w / 16) + 10000 * (c_cb q - 2 ^ w / 2)).
Definition exact_gw (w : Z) (q : ycc) : Z :=
  clamp 0 ((2 ^ w - 1) * (5512 * 6495 * 7563))
    (5512 * 6495 * 7563 * (c_y q - 2 ^ w / 16) - 6495 * (618 * 10000) * (c_cb q - 2 ^ w / 2) - 5512 * (1819 * 10000) * (c_cr q - 2 ^ w / 2)).
