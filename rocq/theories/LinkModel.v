(** Model of the rgb video output feeding the HDMI PHY, and of the receiver's
    frame extraction input.  /repo/litevideo/output/__init__.py:51-57,
    /repo/litevideo/output/driver.py:54-63, /repo/litevideo/input/__init__.py:140-151. *)
From Coq Require Import ZArith List Bool.
From Verif Require Import Hdl TimingModel VideoOutModel AnalysisModel HdmiModel.
Open Scope Z_scope.

(** output/__init__.py:51-57 and core.py:251-255: the PHY's input in one clock.
    The PHY is always ready (s6.py:265, s7.py:160). *)
Definition tx_px (s : tg_st) (v : vo_in) : px :=
  {| px_r := slice 0 8 (vi_data v); px_g := slice 8 8 (vi_data v); px_b := slice 16 8 (vi_data v);
     px_hs := t_hs s; px_vs := t_vs s; px_de := tg_de (vi_valid v) s |}.

(** Constant parameters, DMA data always available, PHY always ready. *)
Definition tx_always (p : fparam) (_ : nat) : vs_in :=
  {| si_valid := true; si_p := p; si_dv := true; si_ready := true |}.

(** The pixel stream sent when the DMA delivers the words [w 0, w 1, ...]. *)
Definition tx_stream (p : fparam) (w : nat -> Z) (n : nat) : px :=
  let s := vs_run false w (tx_always p) n in tx_px (vs_tg s) (vs_vi w s (tx_always p n)).

(** input/__init__.py:140-151, analysis.py:213-218: input of the packer in rgb mode. *)
Definition rx_pk_in (s : rx_st) : pk_in :=
  {| pki_vsync := sp_vsync (rx_sp s); pki_we := sp_valid (rx_sp s) && sp_de (rx_sp s);
     pki_px := rgb_pixel (sp_r (rx_sp s)) (sp_g (rx_sp s)) (sp_b (rx_sp s)) |}.
