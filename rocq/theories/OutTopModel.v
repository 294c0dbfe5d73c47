(** Model of the whole video output core from its registers on: the initiator with
    its FIFO between the sys clock and the clock of the DRAM port, the timing
    generator, the frame reader and the DRAM reader.
    /repo/litevideo/output/core.py:14-62 and 195-256, rgb or ycbcr422 mode, no
    genlock stream.  FifoModel.v has the initiator, VideoOutModel.v the rest. *)
From Coq Require Import ZArith List Bool.
From Verif Require Import Hdl TimingModel VideoOutModel HdmiModel LinkModel FifoModel PhyModel.
Import ListNotations.
Open Scope Z_scope.

(** The parameters of the timing generator and of the frame reader when the
    registers, in the order of output/common.py:11-25, hold [R] (output/core.py:248-249);
    byte counts become word counts (output/core.py:55-62). *)
Definition regs_param (shift aw : Z) (R : list Z) : vparam :=
  let r k := nth k R 0 in
  {| vp_t := {| p_hres := r 0%nat; p_hs_start := r 1%nat; p_hs_end := r 2%nat; p_hscan := r 3%nat;
                p_vres := r 4%nat; p_vs_start := r 5%nat; p_vs_end := r 6%nat; p_vscan := r 7%nat |};
     vp_base := dr_words shift aw (r 8%nat); vp_length := dr_words shift aw (r 9%nat) |}.

(** Inputs at an instant: edges of sys and of the DRAM port's clock, register write,
    memory willing to accept a command, data of the oldest read back, consumer
    ready, and the two race masks of the FIFO. *)
Record ot_in := {
  ot_sys : bool; ot_cd : bool; ot_sw : ini_wr; ot_mem : bool; ot_ret : bool; ot_ready : bool; ot_mp : Z; ot_mc : Z
}.
Record ot_st := { ot_ini : ini_st; ot_tg : tg_st; ot_dr : dr_st; ot_reads : list Z }.

Section OutTop.
(** log2 of the bytes per memory word, width of a word address, depth of the DRAM reader. *)
Variables (shift aw : Z) (depth : nat).

(** The part in the DRAM port's clock: at most one parameter set on offer; the FIFO's
    output is whatever its memory holds while it is empty. *)
Definition ot_vt (s : ot_st) : vt_st :=
  {| vt_tg := ot_tg s; vt_dr := ot_dr s;
     vt_q := match ini_out (ot_ini s) with Some R => [regs_param shift aw R] | None => [] end;
     vt_reads := ot_reads s |}.
Definition ot_ti (s : ot_st) (i : ot_in) : vt_in :=
  {| ti_push := None; ti_mem := ot_mem i; ti_ret := ot_ret i; ti_ready := ot_ready i;
     ti_junk := regs_param shift aw (af_dout [] (ini_fifo (ot_ini s))) |}.
(** output/core.py:230: ready of the FIFO. *)
Definition ot_rdy (s : ot_st) (i : ot_in) : bool :=
  tg_sink_ready (vo_tready (ot_tg s) (vt_vi (ot_vt s) (ot_ti s i))) (ot_tg s).
Definition ot_ini_in (s : ot_st) (i : ot_in) : ini_in :=
  {| ini_sys := ot_sys i; ini_cd := ot_cd i; ini_sw := ot_sw i; ini_rdy := ot_rdy s i; ini_mp := ot_mp i; ini_mc := ot_mc i |}.
Definition ot_step (s : ot_st) (i : ot_in) : ot_st :=
  let v := vt_step aw depth (ot_vt s) (ot_ti s i) in
  {| ot_ini := ini_step (ot_ini s) (ot_ini_in s i);
     ot_tg := if ot_cd i then vt_tg v else ot_tg s;
     ot_dr := if ot_cd i then vt_dr v else ot_dr s;
     ot_reads := if ot_cd i then vt_reads v else ot_reads s |}.
Definition ot_init (mem : list (list Z)) (ra : Z) : ot_st :=
  {| ot_ini := ini_init mem ra; ot_tg := tg_init; ot_dr := dr_init; ot_reads := [] |}.
Definition ot_run (mem : list (list Z)) (ra : Z) (i : nat -> ot_in) (t : nat) : ot_st := at_ ot_step (ot_init mem ra) i t.

(** What the PHY is given when the memory holds [M]; the data are [junk] while the
    DRAM reader has none. *)
Definition ot_px (M : Z -> Z) (junk : Z) (s : ot_st) (i : ot_in) : px := vt_px M junk (ot_vt s) (ot_ti s i).
(** The read command that the memory accepts (output/core.py:36-53, DMA reader over its port). *)
Definition ot_addr (s : ot_st) (i : ot_in) : option Z := dr_taken aw (ot_dr s) (vt_di depth (ot_vt s) (ot_ti s i)).
(** The DRAM reader has a word. *)
Definition ot_dv (s : ot_st) (i : ot_in) : bool := vi_dv (vt_vi (ot_vt s) (ot_ti s i)).
End OutTop.
