(** Specification of raster timing: what a display sees at the [k]-th point of
    the scan. *)
From Coq Require Import ZArith Bool.
From Verif Require Import TimingModel.
Open Scope Z_scope.

(** Column and line of point [k], counting from the first point of a frame. *)
Definition scan_x (p : fparam) (k : Z) : Z := k mod (p_hscan p + 1).
Definition scan_y (p : fparam) (k : Z) : Z := (k / (p_hscan p + 1)) mod (p_vscan p + 1).

Definition spec_de p k : bool := (scan_x p k <? p_hres p) && (scan_y p k <? p_vres p).
Definition spec_hsync p k : bool := (p_hs_start p <=? scan_x p k) && (scan_x p k <? p_hs_end p).
Definition spec_vsync p k : bool := (p_vs_start p <=? scan_y p k) && (scan_y p k <? p_vs_end p).
(** Last point of a frame. *)
Definition spec_last p k : bool := (k + 1) mod ((p_hscan p + 1) * (p_vscan p + 1)) =? 0.

(** Parameter sets in range. *)
Record params_ok (p : fparam) : Prop := {
  ok_hscan : 0 <= p_hscan p < 4096; ok_vscan : 0 <= p_vscan p < 4096;
  ok_hres : 0 <= p_hres p <= p_hscan p; ok_vres : 0 <= p_vres p <= p_vscan p;
  ok_hs : 0 <= p_hs_start p <= p_hs_end p; ok_hs_end : p_hs_end p <= p_hscan p;
  ok_vs : 0 <= p_vs_start p <= p_vs_end p; ok_vs_end : p_vs_end p <= p_vscan p
}.
