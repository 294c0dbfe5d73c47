(** Model of the VGA PHY and of the video output when the memory does not keep
    up.  /repo/litevideo/output/driver.py:21-36, /repo/litevideo/output/core.py:248-262,
    /repo/litevideo/output/__init__.py:44-57. *)
From Coq Require Import ZArith List Bool.
From Verif Require Import Hdl TimingModel VideoOutModel HdmiModel LinkModel.
Open Scope Z_scope.

(** driver.py:28-36: the pins of a VGA PHY with [rw], [gw], [bw] colour pins
    (at most 8 each).  Combinational. *)
Record vga := { vga_hsync_n : bool; vga_vsync_n : bool; vga_r : Z; vga_g : Z; vga_b : Z; vga_psave_n : bool }.
Definition vga_phy (rw gw bw : Z) (x : px) : vga :=
  {| vga_hsync_n := negb (px_hs x); vga_vsync_n := negb (px_vs x);
     vga_r := slice (8 - rw) rw (px_r x); vga_g := slice (8 - gw) gw (px_g x); vga_b := slice (8 - bw) bw (px_b x);
     vga_psave_n := true |}.

(** core.py:248-262 with a PHY that is always ready (driver.py:29, s6.py:265,
    s7.py:160) and ignores [valid]: [dv n] says whether the DMA has a word in clock
    [n]; if not, its data output carries [junk n]. *)
Definition uf_in (p : fparam) (dv : nat -> bool) (n : nat) : vs_in :=
  {| si_valid := true; si_p := p; si_dv := dv n; si_ready := true |}.
(** __init__.py:51-57. *)
Definition uf_stream (p : fparam) (w : nat -> Z) (dv : nat -> bool) (junk : nat -> Z) (n : nat) : px :=
  let s := vs_run false w (uf_in p dv) n in
  tx_px (vs_tg s) {| vi_valid := true; vi_p := p; vi_dv := dv n;
                     vi_data := if dv n then w (vs_taken s) else junk n; vi_ready := true |}.

(** The same with the parameter queue, the frame reader and the DRAM reader
    (VideoOutModel.v): what the PHY is given in one clock when the memory holds [M]. *)
Definition vt_px (M : Z -> Z) (junk : Z) (s : vt_st) (i : vt_in) : px :=
  let v := vt_vi s i in
  tx_px (vt_tg s) {| vi_valid := vi_valid v; vi_p := vi_p v; vi_dv := vi_dv v;
                     vi_data := if vi_dv v then M (vi_data v) else junk; vi_ready := vi_ready v |}.
