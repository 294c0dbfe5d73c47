(** Model of the two chroma resamplers in a chain, as /repo/litevideo/csc/test/ycbcr_resampling_tb.py:13-32
    connects them.  The bench leaves the [first] input of the downsampler's datapath
    (ycbcr444to422.py:24) undriven, that is false; here it is an input. *)
From Coq Require Import ZArith List Bool.
From Verif Require Import Hdl Trace PipeModel CscModel.
Import ListNotations.

Record rs_in := { rsi_valid : bool; rsi_pix : ycc; rsi_first : bool; rsi_ready : bool }.
Record rs_st := { rs_d : pa_st ds_st; rs_u : us_st }.
Definition rs_init : rs_st := {| rs_d := pa_init ds_st ds_init ds_latency; rs_u := us_init |}.

(** ycbcr_resampling_tb.py:21-26: the downsampler's sink and source. *)
Definition rs_pa (s : rs_st) (i : rs_in) : pa_in ds_in :=
  Build_pa_in _ (rsi_valid i) {| dsi_pix := rsi_pix i; dsi_first := rsi_first i |} (us_sink_ready (rs_u s)).
(** ycbcr_resampling_tb.py:26: source.connect(sink) of the upsampler. *)
Definition rs_us (s : rs_st) (i : rs_in) : us_in :=
  {| usi_valid := pa_source_valid _ _ (rs_d s) (rs_pa s i); usi_pix := ds_out (pa_dp _ (rs_d s)); usi_ready := rsi_ready i |}.
(** Both submodules, ycbcr_resampling_tb.py:16-17. *)
Definition rs_step (w : Z) (s : rs_st) (i : rs_in) : rs_st :=
  {| rs_d := pa_step _ _ (ds_step w) (rs_d s) (rs_pa s i); rs_u := us_step (rs_u s) (rs_us s i) |}.
Definition rs_run (w : Z) (i : nat -> rs_in) (n : nat) : rs_st := at_ (rs_step w) rs_init i n.

(** Handshakes at the two ends, ycbcr_resampling_tb.py:21 and 28. *)
Definition rs_sink_ready (s : rs_st) (i : rs_in) : bool := pa_sink_ready _ _ (rs_d s) (rs_pa s i).
Definition rs_source_valid (s : rs_st) : bool := us_source_valid (rs_u s).
Definition rs_source (s : rs_st) : ycc := us_source (rs_u s).
