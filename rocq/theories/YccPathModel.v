(** Model of the two YCbCr 4:2:2 paths: frame capture and video output.
    /repo/litevideo/input/analysis.py:150-209 and /repo/litevideo/output/__init__.py:59-96;
    and of the rgb pixel formats of both sides. *)
From Coq Require Import ZArith List Bool.
From Verif Require Import Hdl DelayModel PipeModel CscModel AnalysisModel.
Import ListNotations.
Open Scope Z_scope.

(** * Capture, analysis.py:150-209 (pix clock domain) *)

Record fe_in := { fi_valid : bool; fi_vsync : bool; fi_de : bool; fi_px : rgb }.
(** de_r (160), the converters (163-166), the DE delay line (178-188), the packer (191-209). *)
Record fe_st := { fe_de_r : bool; fe_ry : pa_st ry_st; fe_ds : pa_st ds_st; fe_ded : list bool; fe_pk : pk_st }.
Definition fe_init (F : nat) : fe_st :=
  {| fe_de_r := false; fe_ry := pa_init _ ry_init ry_latency; fe_ds := pa_init _ ds_init ds_latency;
     fe_ded := repeat false (ry_latency + ds_latency); fe_pk := pk_init F |}.

(** 167-175: connections.  [first] is taken from the undelayed DE. *)
Definition fe_ds_in (s : fe_st) (i : fe_in) : pa_in ds_in :=
  {| pai_valid := dly_out (pa_v _ (fe_ry s)) (fi_valid i);
     pai_data := {| dsi_pix := ry_out (pa_dp _ (fe_ry s)); dsi_first := fi_de i && negb (fe_de_r s) |};
     pai_ready := true |}.
Definition fe_ry_in (s : fe_st) (i : fe_in) : pa_in rgb :=
  {| pai_valid := fi_valid i; pai_data := fi_px i; pai_ready := pa_sink_ready _ _ (fe_ds s) (fe_ds_in s i) |}.
(** 193-195, 202: the packer's input. *)
Definition fe_encoded (p : yc2) : Z := d_y p + 256 * d_c p.
Definition fe_pk_in (s : fe_st) (i : fe_in) : pk_in :=
  {| pki_vsync := fi_vsync i;
     pki_we := pa_source_valid _ _ (fe_ds s) (fe_ds_in s i) && dly_out (fe_ded s) (fi_de i);
     pki_px := fe_encoded (ds_out (pa_dp _ (fe_ds s))) |}.
Definition fe_step (F : nat) (s : fe_st) (i : fe_in) : fe_st :=
  {| fe_de_r := fi_de i;
     fe_ry := pa_step _ _ (ry_step 8) (fe_ry s) (fe_ry_in s i);
     fe_ds := pa_step _ _ (ds_step 8) (fe_ds s) (fe_ds_in s i);
     fe_ded := dly_step (fe_ded s) (fi_de i);
     fe_pk := pk_step F (fe_pk s) (fe_pk_in s i) |}.
Definition fe_run F (i : nat -> fe_in) (n : nat) : fe_st := at_ (fe_step F) (fe_init F) i n.

(** The pixel handed to the packer in a clock. *)
Definition fe_pixel (s : fe_st) (i : fe_in) : option Z :=
  if pki_we (fe_pk_in s i) then Some (pki_px (fe_pk_in s i)) else None.

(** * Output, output/__init__.py:59-96.  Input: the output stream of the core,
    which is always accepted (77); the driver is always ready
    (output/driver.py:29, hdmi/s6.py:258, hdmi/s7.py:153). *)
Record vy_in := { vyi_valid : bool; vyi_de : bool; vyi_hs : bool; vyi_vs : bool; vyi_data : Z }.
Record vy_st := {
  vy_de_r : bool; vy_vd : bool; vy_dd : Z;        (* 66-74 *)
  vy_us : us_st; vy_yr : pa_st yr_st;             (* 60-61 *)
  vy_td : list (bool * bool * bool)               (* 62-63, (de, hsync, vsync) *)
}.
(** csc/ycbcr422to444.py:18. *)
Definition us_latency : nat := 2.
Definition vy_init : vy_st :=
  {| vy_de_r := false; vy_vd := false; vy_dd := 0; vy_us := us_init; vy_yr := pa_init _ yr_init yr_latency;
     vy_td := repeat (false, false, false) (us_latency + yr_latency) |}.

(** 83: output of the upsampler into the colour converter. *)
Definition vy_yr_in (s : vy_st) : pa_in ycc :=
  {| pai_valid := us_source_valid (vy_us s); pai_data := us_source (vy_us s); pai_ready := true |}.
(** 79-81. *)
Definition vy_us_in (s : vy_st) : us_in :=
  {| usi_valid := vy_vd s; usi_pix := {| d_y := slice 0 8 (vy_dd s); d_c := slice 8 8 (vy_dd s) |};
     usi_ready := pa_sink_ready _ _ (vy_yr s) (vy_yr_in s) |}.
(** One clock; the upsampler has a synchronous reset (ycbcr422to444.py:9), driven by
    the rising edge of DE (78). *)
Definition vy_step (s : vy_st) (i : vy_in) : vy_st :=
  {| vy_de_r := vyi_de i; vy_vd := vyi_valid i; vy_dd := slice 0 16 (vyi_data i);
     vy_us := if vyi_de i && negb (vy_de_r s) then us_init else us_step (vy_us s) (vy_us_in s);
     vy_yr := pa_step _ _ (yr_step 8) (vy_yr s) (vy_yr_in s);
     vy_td := dly_step (vy_td s) (vyi_de i, vyi_hs i, vyi_vs i) |}.
Definition vy_run (i : nat -> vy_in) (n : nat) : vy_st := at_ vy_step vy_init i n.

(** What the driver gets in a clock (85-96): de, hsync, vsync and the colour. *)
Definition vy_sync (s : vy_st) (i : vy_in) : bool * bool * bool := dly_out (vy_td s) (vyi_de i, vyi_hs i, vyi_vs i).
Definition vy_de (s : vy_st) (i : vy_in) : bool := fst (fst (vy_sync s i)).
Definition vy_colour (s : vy_st) : rgb := yr_out (pa_dp _ (vy_yr s)).

(** * rgb mode: the pixel seen by the driver for a fetched word, output/__init__.py:51-57. *)
Definition vo_rgb (data : Z) : rgb := {| c_r := slice 0 8 data; c_g := slice 8 8 data; c_b := slice 16 8 data |}.
(** raw mode, 44-50: the three TMDS words. *)
Definition vo_raw (data : Z) : Z * Z * Z := (slice 0 10 data, slice 10 10 data, slice 20 10 data).
