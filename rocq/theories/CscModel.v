(** Model of the colour space converters.
    /repo/litevideo/csc/{common,rgb2ycbcr,ycbcr2rgb,ycbcr444to422,ycbcr422to444}.py.
    Pixel width [w] for both sides, coefficient width 8 (the defaults are w = 8, coef_w = 8). *)
From Coq Require Import ZArith List Bool.
From Verif Require Import Hdl PipeModel.
Import ListNotations.
Open Scope Z_scope.

(** csc/common.py:21-31: layouts. *)
Record rgb := { c_r : Z; c_g : Z; c_b : Z }.
Record ycc := { c_y : Z; c_cb : Z; c_cr : Z }.
Definition rgb0 := {| c_r := 0; c_g := 0; c_b := 0 |}.
Definition ycc0 := {| c_y := 0; c_cb := 0; c_cr := 0 |}.

(** csc/common.py:6-15. *)
Definition saturate (w i lo hi : Z) : Z := trunc w (if hi <? i then hi else if i <? lo then lo else i).

(** csc/rgb2ycbcr.py:10-22 with cw = 8: coef(0.1819), coef(0.0618), coef(0.5512),
    coef(0.6495), where coef(v, cw) = int(v * 2**cw) (csc/common.py:18-19). *)
Definition k_ca := 46. Definition k_cb := 15. Definition k_cc := 141. Definition k_cd := 166.
Definition yoffset (w : Z) := 2 ^ (w - 4).
Definition coffset (w : Z) := 2 ^ (w - 1).

(** csc/rgb2ycbcr.py:25-126, all registers that reach an output (the delayed copies
    5..8 of the input are unused). *)
Record ry_st := {
  ry_d1 : rgb; ry_d2 : rgb; ry_d3 : rgb; ry_d4 : rgb;
  ry_rg : Z; ry_bg : Z;                       (* stage 1 *)
  ry_carg : Z; ry_cbbg : Z;                   (* stage 2 *)
  ry_sum : Z;                                 (* stage 3 *)
  ry_yraw : Z;                                (* stage 4 *)
  ry_by : Z; ry_ry : Z; ry_yraw0 : Z;         (* stage 5 *)
  ry_ccm : Z; ry_cdm : Z; ry_yraw1 : Z;       (* stage 6 *)
  ry_y : Z; ry_cb : Z; ry_cr : Z;             (* stage 7 *)
  ry_out : ycc                                (* stage 8 *)
}.
Definition ry_init : ry_st :=
  {| ry_d1 := rgb0; ry_d2 := rgb0; ry_d3 := rgb0; ry_d4 := rgb0; ry_rg := 0; ry_bg := 0; ry_carg := 0; ry_cbbg := 0;
     ry_sum := 0; ry_yraw := 0; ry_by := 0; ry_ry := 0; ry_yraw0 := 0; ry_ccm := 0; ry_cdm := 0; ry_yraw1 := 0;
     ry_y := 0; ry_cb := 0; ry_cr := 0; ry_out := ycc0 |}.

(** One enabled clock, rgb2ycbcr.py:37-126.  A slice of a signed signal is unsigned in Migen. *)
Definition ry_step (w : Z) (s : ry_st) (i : rgb) : ry_st :=
  {| ry_d1 := i; ry_d2 := ry_d1 s; ry_d3 := ry_d2 s; ry_d4 := ry_d3 s;
     ry_rg := strunc (w + 1) (c_r i - c_g i);
     ry_bg := strunc (w + 1) (c_b i - c_g i);
     ry_carg := strunc (w + 8 + 1) (ry_rg s * k_ca);
     ry_cbbg := strunc (w + 8 + 1) (ry_bg s * k_cb);
     ry_sum := strunc (w + 8 + 9) (ry_carg s + ry_cbbg s);
     ry_yraw := strunc (w + 3) (slice 8 (w + 9) (ry_sum s) + c_g (ry_d3 s));
     ry_by := strunc (w + 4) (c_b (ry_d4 s) - ry_yraw s);
     ry_ry := strunc (w + 4) (c_r (ry_d4 s) - ry_yraw s);
     ry_yraw0 := strunc (w + 3) (ry_yraw s);
     ry_ccm := strunc (w + 8 + 4) (ry_by s * k_cc);
     ry_cdm := strunc (w + 8 + 4) (ry_ry s * k_cd);
     ry_yraw1 := strunc (w + 3) (ry_yraw0 s);
     ry_y := strunc (w + 3) (ry_yraw1 s + yoffset w);
     ry_cb := strunc (w + 4) (slice 8 (w + 4) (ry_ccm s) + coffset w);
     ry_cr := strunc (w + 4) (slice 8 (w + 4) (ry_cdm s) + coffset w);
     ry_out := {| c_y := saturate w (ry_y s) 0 (2 ^ w - 1);
                  c_cb := saturate w (ry_cb s) 0 (2 ^ w - 1);
                  c_cr := saturate w (ry_cr s) 0 (2 ^ w - 1) |} |}.
(** rgb2ycbcr.py:27. *)
Definition ry_latency : nat := 8.

(** csc/ycbcr2rgb.py:9-30 with cw = 8, so six fractional bits: int(1/0.6495*64),
    int(-0.0618/(0.5512*0.7563)*64), int(-0.1819/(0.6495*0.7563)*64), int(1/0.5512*64). *)
Definition k_a := 98. Definition k_b := -9. Definition k_c := -23. Definition k_d := 116.

(** csc/ycbcr2rgb.py:32-104. *)
Record yr_st := {
  yr_d1 : ycc; yr_cbm : Z; yr_crm : Z;                              (* stage 1 *)
  yr_ym : Z; yr_cra : Z; yr_cbb : Z; yr_crc : Z; yr_cbd : Z;        (* stage 2 *)
  yr_r : Z; yr_g : Z; yr_b : Z;                                     (* stage 3 *)
  yr_out : rgb                                                      (* stage 4 *)
}.
Definition yr_init : yr_st :=
  {| yr_d1 := ycc0; yr_cbm := 0; yr_crm := 0; yr_ym := 0; yr_cra := 0; yr_cbb := 0; yr_crc := 0; yr_cbd := 0;
     yr_r := 0; yr_g := 0; yr_b := 0; yr_out := rgb0 |}.
Definition yr_step (w : Z) (s : yr_st) (i : ycc) : yr_st :=
  {| yr_d1 := i;
     yr_cbm := strunc (w + 1) (c_cb i - coffset w);
     yr_crm := strunc (w + 1) (c_cr i - coffset w);
     yr_ym := strunc (w + 1) (c_y (yr_d1 s) - yoffset w);
     yr_cra := strunc (w + 8 + 4) (yr_crm s * k_a);
     yr_cbb := strunc (w + 8 + 4) (yr_cbm s * k_b);
     yr_crc := strunc (w + 8 + 4) (yr_crm s * k_c);
     yr_cbd := strunc (w + 8 + 4) (yr_cbm s * k_d);
     yr_r := strunc (w + 4) (yr_ym s + slice 6 (w + 6) (yr_cra s));
     yr_g := strunc (w + 4) (yr_ym s + slice 6 (w + 6) (yr_cbb s) + slice 6 (w + 6) (yr_crc s));
     yr_b := strunc (w + 4) (yr_ym s + slice 6 (w + 6) (yr_cbd s));
     yr_out := {| c_r := saturate w (yr_r s) 0 (2 ^ w - 1);
                  c_g := saturate w (yr_g s) 0 (2 ^ w - 1);
                  c_b := saturate w (yr_b s) 0 (2 ^ w - 1) |} |}.
(** ycbcr2rgb.py:34. *)
Definition yr_latency : nat := 4.

(** * csc/ycbcr444to422.py:10-70 *)
Record yc2 := { d_y : Z; d_c : Z }.
Record ds_in := { dsi_pix : ycc; dsi_first : bool }.
Record ds_st := { ds_d1 : ycc; ds_d2 : ycc; ds_par : bool; ds_cbs : Z; ds_crs : Z; ds_out : yc2 }.
Definition ds_init : ds_st :=
  {| ds_d1 := ycc0; ds_d2 := ycc0; ds_par := false; ds_cbs := 0; ds_crs := 0; ds_out := {| d_y := 0; d_c := 0 |} |}.
Definition ds_step (w : Z) (s : ds_st) (i : ds_in) : ds_st :=
  {| ds_d1 := dsi_pix i; ds_d2 := ds_d1 s;
     ds_par := dsi_first i || negb (ds_par s);
     ds_cbs := if ds_par s then trunc (w + 1) (c_cb (dsi_pix i) + c_cb (ds_d1 s)) else ds_cbs s;
     ds_crs := if ds_par s then trunc (w + 1) (c_cr (dsi_pix i) + c_cr (ds_d1 s)) else ds_crs s;
     ds_out := {| d_y := c_y (ds_d2 s);
                  d_c := if ds_par s then slice 1 w (ds_crs s) else slice 1 w (ds_cbs s) |} |}.
(** ycbcr444to422.py:19. *)
Definition ds_latency : nat := 3.

(** * csc/ycbcr422to444.py:9-63: three 4-deep FIFOs (litex stream.SyncFIFO, unbuffered:
    writable while fewer than four entries, readable while not empty). *)
Record us_st := { us_y : list Z; us_cb : list Z; us_cr : list Z; us_pin : bool; us_pout : bool }.
Definition us_init : us_st := {| us_y := []; us_cb := []; us_cr := []; us_pin := false; us_pout := false |}.
Record us_in := { usi_valid : bool; usi_pix : yc2; usi_ready : bool }.
Definition nonempty {A : Type} (l : list A) : bool := match l with [] => false | _ => true end.
Definition us_sink_ready (s : us_st) : bool :=
  (length (us_y s) <? 4)%nat && (if us_pin s then (length (us_cr s) <? 4)%nat else (length (us_cb s) <? 4)%nat).
Definition us_source_valid (s : us_st) : bool := nonempty (us_y s) && nonempty (us_cb s) && nonempty (us_cr s).
Definition us_source (s : us_st) : ycc :=
  {| c_y := hd 0 (us_y s); c_cb := hd 0 (us_cb s); c_cr := hd 0 (us_cr s) |}.
Definition us_step (s : us_st) (i : us_in) : us_st :=
  let put := usi_valid i && us_sink_ready s in
  let get := us_source_valid s && usi_ready i in
  let deq (b : bool) (l : list Z) := if b then tl l else l in
  {| us_y := deq get (us_y s) ++ (if put then [d_y (usi_pix i)] else []);
     us_cb := deq (get && us_pout s) (us_cb s) ++ (if put && negb (us_pin s) then [d_c (usi_pix i)] else []);
     us_cr := deq (get && us_pout s) (us_cr s) ++ (if put && us_pin s then [d_c (usi_pix i)] else []);
     us_pin := if put then negb (us_pin s) else us_pin s;
     us_pout := if get then negb (us_pout s) else us_pout s |}.
Definition us_run (i : nat -> us_in) (n : nat) : us_st := at_ us_step us_init i n.
