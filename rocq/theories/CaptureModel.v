(** Model of the receiver's capture path in both clock domains: packer and FIFO
    (FifoModel.v) connected to the DMA (InDmaModel.v).
    /repo/litevideo/input/__init__.py:140-155, /repo/litevideo/input/dma.py:101-109. *)
From Coq Require Import ZArith List Bool.
From Verif Require Import Hdl AnalysisModel InDmaModel FifoModel.
Import ListNotations.
Open Scope Z_scope.

(** Inputs at an instant: edges of pix and sys, the packer's input, the memory
    writer's readiness, wdata.valid of the port, frame size register, software
    access, races in the FIFO. *)
Record cap_in := {
  cap_pix : bool; cap_sys : bool; cap_pk : pk_in; cap_mready : bool; cap_wbusy : bool; cap_size : Z; cap_sw : sw;
  cap_mp : Z; cap_mc : Z
}.
Record cap_st := { cap_fe : fe_st; cap_dma : dma_st }.

(** The word register as a number: lanes of [lw] bits, 16 in ycbcr422 mode
    (analysis.py:193, 204-205), 32 in rgb mode (216, 227-228). *)
Fixpoint lanes_z (lw : Z) (l : list Z) : Z := match l with [] => 0 | x :: r => x + 2 ^ lw * lanes_z lw r end.

Section Cap.
Variables (n : Z) (F : nat) (lw aw dw align : Z).

(** input/__init__.py:154: frame.frame.connect(dma.frame). *)
Definition cap_dma_in (s : cap_st) (i : cap_in) : dma_in :=
  let w := match fe_frame (cap_fe s) with Some w => w | None => fe_word0 end in
  {| dmi_valid := match fe_frame (cap_fe s) with Some _ => true | None => false end;
     dmi_sof := fst w; dmi_px := lanes_z lw (snd w); dmi_ready := cap_mready i; dmi_wbusy := cap_wbusy i;
     dmi_size := cap_size i; dmi_sw := cap_sw i |}.
Definition cap_fe_in (s : cap_st) (i : cap_in) : fe_in :=
  {| fei_pix := cap_pix i; fei_sys := cap_sys i; fei_pk := cap_pk i; fei_ready := dm_ready (cap_dma s) (cap_dma_in s i);
     fei_mp := cap_mp i; fei_mc := cap_mc i |}.
Definition cap_step (s : cap_st) (i : cap_in) : cap_st :=
  {| cap_fe := fe_step n F (cap_fe s) (cap_fe_in s i);
     cap_dma := if cap_sys i then dma_step aw dw align (cap_dma s) (cap_dma_in s i) else cap_dma s |}.
Definition cap_run (mem : list (bool * list Z)) (ra : Z) (d : dma_st) (i : nat -> cap_in) (t : nat) : cap_st :=
  at_ cap_step {| cap_fe := fe_init F mem ra; cap_dma := d |} i t.
End Cap.
