(** Reference formulas for colour conversion, in integer arithmetic ([/] is floor division). *)
From Coq Require Import ZArith.
From Verif Require Import CscModel.
Open Scope Z_scope.

Definition clamp (lo hi x : Z) : Z := Z.max lo (Z.min hi x).

(** Pixels of [w] bits per component. *)
Definition rgb_ok (w : Z) (p : rgb) : Prop := 0 <= c_r p < 2 ^ w /\ 0 <= c_g p < 2 ^ w /\ 0 <= c_b p < 2 ^ w.
Definition ycc_ok (w : Z) (p : ycc) : Prop := 0 <= c_y p < 2 ^ w /\ 0 <= c_cb p < 2 ^ w /\ 0 <= c_cr p < 2 ^ w.

(** luma = 46/256 (r-g) + 15/256 (b-g) + g, then offsets 2^w/16 and 2^w/2 *)
Definition luma (p : rgb) : Z := (46 * (c_r p - c_g p) + 15 * (c_b p - c_g p)) / 256 + c_g p.
Definition spec_ycc (w : Z) (p : rgb) : ycc :=
  {| c_y := clamp 0 (2 ^ w - 1) (luma p + 2 ^ w / 16);
     c_cb := clamp 0 (2 ^ w - 1) (141 * (c_b p - luma p) / 256 + 2 ^ w / 2);
     c_cr := clamp 0 (2 ^ w - 1) (166 * (c_r p - luma p) / 256 + 2 ^ w / 2) |}.

Definition spec_rgb (w : Z) (q : ycc) : rgb :=
  let y := c_y q - 2 ^ w / 16 in
  let cb := c_cb q - 2 ^ w / 2 in
  let cr := c_cr q - 2 ^ w / 2 in
  {| c_r := clamp 0 (2 ^ w - 1) (y + 98 * cr / 64);
     c_g := clamp 0 (2 ^ w - 1) (y + (-9) * cb / 64 + (-23) * cr / 64);
     c_b := clamp 0 (2 ^ w - 1) (y + 116 * cb / 64) |}.
