(** Model of the receiver's frame extraction input in ycbcr422 mode, the default
    of HDMIIn.  /repo/litevideo/input/__init__.py:47, 140-151. *)
From Coq Require Import ZArith List Bool.
From Verif Require Import Hdl AnalysisModel HdmiModel CscModel YccPathModel.

(** input/__init__.py:142-149: what the frame extraction gets from the receiver. *)
Definition rx_fe_in (s : rx_st) : fe_in :=
  {| fi_valid := sp_valid (rx_sp s); fi_vsync := sp_vsync (rx_sp s); fi_de := sp_de (rx_sp s);
     fi_px := {| c_r := sp_r (rx_sp s); c_g := sp_g (rx_sp s); c_b := sp_b (rx_sp s) |} |}.

(** The packer's input with [F] pixels per word, analysis.py:150-202, when the
    receiver starts in state [s0] and the frame extraction at its reset values. *)
Definition ycc_pk_stream (F : nat) (s0 : rx_st) (raw : nat -> nat -> Z) (t : nat) : pk_in :=
  let i n := rx_fe_in (rx_run s0 raw n) in fe_pk_in (fe_run F i t) (i t).
