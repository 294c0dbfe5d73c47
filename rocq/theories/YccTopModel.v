(** Model of the whole video output in ycbcr422 mode: the core of OutTopModel.v, the
    chroma upsampler, the colour converter and the delayed syncs of YccPathModel.v.
    /repo/litevideo/output/core.py:234-262 and /repo/litevideo/output/__init__.py:58-96. *)
From Coq Require Import ZArith List Bool.
From Verif Require Import Hdl TimingModel VideoOutModel HdmiModel CscModel OutTopModel YccPathModel.
Open Scope Z_scope.

Section YccTop.
(** log2 of the bytes per memory word, width of a word address. *)
Variables (shift aw : Z).
(** output/core.py:234 (valid), 252-255 (syncs and data): the core's output in a clock
    when the memory holds [M]; the data are [junk] while the DRAM reader has none. *)
Definition yt_core (M : Z -> Z) (junk : Z) (s : ot_st) (i : ot_in) : vy_in :=
  let v := vt_vi (ot_vt shift aw s) (ot_ti shift aw s i) in
  {| vyi_valid := vo_valid (ot_tg s) v; vyi_de := tg_de (vi_valid v) (ot_tg s); vyi_hs := t_hs (ot_tg s); vyi_vs := t_vs (ot_tg s);
     vyi_data := if vi_dv v then M (vi_data v) else junk |}.
End YccTop.

(** output/__init__.py:85-96 and output/driver.py:54-63: what the PHY is given in clock [n] of the
    output when the core's outputs are [c]. *)
Definition yt_px (c : nat -> vy_in) (n : nat) : px :=
  let s := vy_run c n in
  let '(de, hs, vs) := vy_sync s (c n) in
  {| px_r := c_r (vy_colour s); px_g := c_g (vy_colour s); px_b := c_b (vy_colour s); px_hs := hs; px_vs := vs; px_de := de |}.
