(** Model of the command and status paths between two clock domains.
    Time is a sequence of instants; at each instant the source clock, the
    destination clock, both or none has a rising edge, in any order and at
    any rates.  At a common edge both domains read the values before it.
    For a one-bit signal that changes together with a sampling edge, reading
    the old or the new value are the schedules with the edges in one order or
    the other, so every resolution of that race is covered.
    migen.genlib.cdc is not in /repo; MultiReg is two registers and
    PulseSynchronizer is a toggle, a MultiReg and an edge detector. *)
From Coq Require Import ZArith List Bool.
From Verif Require Import Hdl WerModel.
Import ListNotations.

(** * PulseSynchronizer *)
Record ps_st := { ps_t : bool; ps_m0 : bool; ps_m1 : bool; ps_r : bool }.
Definition ps_init : ps_st := {| ps_t := false; ps_m0 := false; ps_m1 := false; ps_r := false |}.
(** Output during the destination clock. *)
Definition ps_o (s : ps_st) : bool := xorb (ps_m1 s) (ps_r s).
(** [ea]: edge of the source clock, [eb]: edge of the destination clock, [i]: input. *)
Definition ps_step (ea eb i : bool) (s : ps_st) : ps_st :=
  {| ps_t := if ea && i then negb (ps_t s) else ps_t s;
     ps_m0 := if eb then ps_t s else ps_m0 s;
     ps_m1 := if eb then ps_m0 s else ps_m1 s;
     ps_r := if eb then ps_m1 s else ps_r s |}.

(** One instant of a stand-alone synchroniser: (source edge, destination edge, input). *)
Definition ps_step3 (s : ps_st) (x : bool * bool * bool) : ps_st :=
  let '(ea, eb, i) := x in ps_step ea eb i s.
Definition ps_run (x : nat -> bool * bool * bool) (n : nat) : ps_st := at_ ps_step3 ps_init x n.

(** * S6DataCapture delay control, input/datacapture.py:115-187, for one of the two delay lines.
    Clocks: sys ([dci_sys]) and pix2x ([dci_pix]).  [dci_cal], [dci_inc], [dci_dec]: the bits of a write to
    dly_ctl in the current sys clock (179-184); [dci_busy]: BUSY output of the delay line. *)
Record dc_in := { dci_sys : bool; dci_pix : bool; dci_cal : bool; dci_inc : bool; dci_dec : bool; dci_busy : bool }.
Record dc_st := {
  dc_cal : ps_st; dc_inc : ps_st; dc_dec : ps_st;      (* 142-147 *)
  dc_pend : bool; dc_done_i : bool;                    (* 116-127 *)
  dc_done : ps_st;                                     (* 116 *)
  dc_spend : bool                                      (* 157-166 *)
}.
Definition dc_init : dc_st :=
  {| dc_cal := ps_init; dc_inc := ps_init; dc_dec := ps_init; dc_pend := false; dc_done_i := false;
     dc_done := ps_init; dc_spend := false |}.
(** Inputs of the delay line during a pix2x clock, 148-155. *)
Definition dc_o_cal (s : dc_st) : bool := ps_o (dc_cal s).
Definition dc_o_inc (s : dc_st) : bool := ps_o (dc_inc s).
Definition dc_o_ce (s : dc_st) : bool := ps_o (dc_inc s) || ps_o (dc_dec s).
(** The status bit in dly_busy, 185-186. *)
Definition dc_status (s : dc_st) : bool := dc_spend s.
Definition dc_step (s : dc_st) (i : dc_in) : dc_st :=
  let a := dci_sys i in let b := dci_pix i in
  {| dc_cal := ps_step a b (dci_cal i) (dc_cal s);
     dc_inc := ps_step a b (dci_inc i) (dc_inc s);
     dc_dec := ps_step a b (dci_dec i) (dc_dec s);
     dc_pend := if b then (if dc_pend s then dci_busy i else dc_o_cal s || dc_o_ce s) else dc_pend s;
     dc_done_i := if b then dc_pend s && negb (dci_busy i) else dc_done_i s;
     dc_done := ps_step b a (dc_done_i s) (dc_done s);
     dc_spend := if a then (if dci_cal i || dci_inc i || dci_dec i then true
                            else if ps_o (dc_done s) then false else dc_spend s)
                 else dc_spend s |}.
Definition dc_run (i : nat -> dc_in) (n : nat) : dc_st := at_ dc_step dc_init i n.

(** * FrameExtraction overflow flag, input/analysis.py:257-287.
    Clocks: sys ([ovi_sys]) and pix ([ovi_pix]).  [ovi_drop]: a word is offered to the full FIFO in the
    current pix clock; [ovi_re]: software writes the overflow register in the current sys clock. *)
Record ov_in := { ovi_sys : bool; ovi_pix : bool; ovi_re : bool; ovi_drop : bool }.
Record ov_st := { ov_pix : bool; ov_m0 : bool; ov_m1 : bool; ov_rst : ps_st; ov_ack : ps_st; ov_mask : bool }.
Definition ov_init : ov_st :=
  {| ov_pix := false; ov_m0 := false; ov_m1 := false; ov_rst := ps_init; ov_ack := ps_init; ov_mask := false |}.
Definition ov_step (s : ov_st) (i : ov_in) : ov_st :=
  let a := ovi_sys i in let b := ovi_pix i in
  {| ov_pix := if b then (if ovi_drop i then true else if ps_o (ov_rst s) then false else ov_pix s) else ov_pix s;  (* 260-266 *)
     ov_m0 := if a then ov_pix s else ov_m0 s;                                                                    (* 269 *)
     ov_m1 := if a then ov_m0 s else ov_m1 s;
     ov_rst := ps_step a b (ovi_re i) (ov_rst s);                                                                 (* 270, 280 *)
     ov_ack := ps_step b a (ps_o (ov_rst s)) (ov_ack s);                                                          (* 271-275 *)
     ov_mask := if a then (if ovi_re i then true else if ps_o (ov_ack s) then false else ov_mask s) else ov_mask s (* 282-287 *) |}.
(** What software reads (279). *)
Definition ov_read (s : ov_st) : bool := ov_m1 s && negb (ov_mask s).
Definition ov_run (i : nat -> ov_in) (n : nat) : ov_st := at_ ov_step ov_init i n.

(** * Word error counter with its transfer to software, input/wer.py:68-75 on top of WerModel.v.
    Source clock pix ([wdi_pix]), destination clock sys ([wdi_sys]); [wdi_data]: the TMDS word;
    [wdi_re]: software writes the update register. *)
Record wd_in := { wdi_pix : bool; wdi_sys : bool; wdi_data : Z; wdi_re : bool }.
Record wd_st := { wd_wer : wer_st; wd_ps : ps_st; wd_sys : Z; wd_status : Z }.
Definition wd_init : wd_st := {| wd_wer := wer_init; wd_ps := ps_init; wd_sys := 0%Z; wd_status := 0%Z |}.
Definition wd_step (pb : Z) (s : wd_st) (i : wd_in) : wd_st :=
  {| wd_wer := if wdi_pix i then wer_step pb (wd_wer s) (wdi_data i) else wd_wer s;
     wd_ps := ps_step (wdi_pix i) (wdi_sys i) (w_upd (wd_wer s)) (wd_ps s);                           (* 70-71 *)
     wd_sys := if wdi_sys i && ps_o (wd_ps s) then w_pub (wd_wer s) else wd_sys s;                    (* 72 *)
     wd_status := if wdi_sys i && wdi_re i then wd_sys s else wd_status s |}.                         (* 75 *)
Definition wd_run (pb : Z) (i : nat -> wd_in) (n : nat) : wd_st := at_ (wd_step pb) wd_init i n.
