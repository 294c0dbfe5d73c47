(** Model of the low-level helpers around the serialisers: clock generator programming, DRP ready
    flags, phase error accumulators, gears. *)
From Coq Require Import ZArith List Bool.
From Verif Require Import Hdl.
Import ListNotations.
Open Scope Z_scope.

(** * S6HDMIOutClocking command shifter.  litevideo/output/hdmi/s6.py:76-103 *)
Record cm_in := { cm_send : bool; cm_go : bool; cm_data : Z }.   (* CSR strobes and the 10-bit CSR storage *)
Record cm_st := { cm_rem : Z; cm_sr : Z; cm_busyc : Z }.
Definition cm_init : cm_st := {| cm_rem := 0; cm_sr := 0; cm_busyc := 0 |}.
(** s6.py:78 and 97. *)
Definition cm_transmitting (s : cm_st) : bool := negb (cm_rem s =? 0).
Definition cm_busy (s : cm_st) : bool := negb (cm_busyc s =? 0).
(** s6.py:89-92. *)
Definition cm_progdata (s : cm_st) : bool := cm_transmitting s && Z.testbit (cm_sr s) 0.
Definition cm_progen (s : cm_st) (i : cm_in) : bool := cm_transmitting s || cm_go i.
(** s6.py:80-88, 98-102.  Signal(max=11) and Signal(max=14) have four bits. *)
Definition cm_step (s : cm_st) (i : cm_in) : cm_st :=
  {| cm_rem := if cm_send i then trunc 4 10 else if cm_transmitting s then trunc 4 (cm_rem s - 1) else cm_rem s;
     cm_sr := if cm_send i then trunc 10 (cm_data i) else if cm_transmitting s then slice 1 9 (cm_sr s) else cm_sr s;
     cm_busyc := if cm_send i then trunc 4 13 else if cm_busy s then trunc 4 (cm_busyc s - 1) else cm_busyc s |}.
Definition cm_run (i : nat -> cm_in) (n : nat) : cm_st := at_ cm_step cm_init i n.

(** * Ready flag of the reconfiguration port.  output/hdmi/s6.py:117-121, output/hdmi/s7.py:126-132,
    input/clocking.py:42-46 and 172-178: the same statement four times. *)
Record drp_in := { drp_read : bool; drp_write : bool; drp_drdy : bool }.
Definition drp_step (s : bool) (i : drp_in) : bool :=
  if drp_read i || drp_write i then false else if drp_drdy i then true else s.
Definition drp_run (i : nat -> drp_in) (n : nat) : bool := at_ drp_step false i n.

(** * Phase error accumulators *)

(** input/datacapture.py:102-105 and 407-410: flags for an [w]-bit accumulator. *)
Definition too_late (w l : Z) : bool := l =? 2 ^ w - 1.
Definition too_early (l : Z) : bool := l =? 0.

(** S6DataCapture, datacapture.py:97-113.  One pix2x clock. *)
Record l6_in := { l6_reset : bool; l6_mbusy : bool; l6_sbusy : bool; l6_valid : bool; l6_incdec : bool }.
Definition l6_step (w l : Z) (i : l6_in) : Z :=
  if l6_reset i then trunc w (2 ^ (w - 1))
  else if negb (l6_mbusy i) && negb (l6_sbusy i) && negb (too_late w l) && negb (too_early l) then
    (if l6_valid i && negb (l6_incdec i) then trunc w (l + 1)
     else if l6_valid i && l6_incdec i then trunc w (l - 1) else l)
  else l.
Definition l6_run (w : Z) (i : nat -> l6_in) (n : nat) : Z := at_ (l6_step w) (2 ^ (w - 1)) i n.

(** S7PhaseDetector, datacapture.py:208-256.  The state is mdata_d (8 bits). *)
Definition pd_step (d m : Z) : Z := m.
Definition pd_transition (d m : Z) : bool := negb (d =? m).
Definition pd_inc (d m s : Z) : bool := pd_transition d m && (m =? s).
Definition pd_dec (d m s : Z) : bool := pd_transition d m && negb (m =? s).

(** S7DataCapture with its detector, datacapture.py:394-418.  One pix1p25x clock; [l7_m], [l7_s] are
    the de-inverted master and slave samples. *)
Record l7_in := { l7_reset : bool; l7_m : Z; l7_s : Z }.
Record l7_st := { l7_late : Z; l7_md : Z }.
Definition l7_step (w : Z) (s : l7_st) (i : l7_in) : l7_st :=
  let l := l7_late s in let m := trunc 8 (l7_m i) in
  {| l7_late :=
       if l7_reset i then trunc w (2 ^ (w - 1))
       else if negb (too_late w l) && negb (too_early l) then
         (if pd_inc (l7_md s) m (trunc 8 (l7_s i)) then trunc w (l - 1)
          else if pd_dec (l7_md s) m (trunc 8 (l7_s i)) then trunc w (l + 1) else l)
       else l;
     l7_md := pd_step (l7_md s) m |}.
Definition l7_run (w : Z) (i : nat -> l7_in) (n : nat) : l7_st :=
  at_ (l7_step w) {| l7_late := 2 ^ (w - 1); l7_md := 0 |} i n.

(** datacapture.py:375-385: polarity of the two S7 samples. *)
Definition s7_mdata (inverted : bool) (q : Z) : Z := if inverted then trunc 8 (Z.lnot q) else trunc 8 q.
Definition s7_sdata (inverted : bool) (q : Z) : Z := if inverted then trunc 8 q else trunc 8 (Z.lnot q).

(** * Gears.  Time is counted in pix2x clocks, two per pix clock; pix is high in the first half.
    Registers clocked by pix change together with every second pix2x edge, and a register clocked by
    pix2x that reads the pix clock level or a pix register at that edge gets the value before it. *)

(** 10 to 5, output/hdmi/s6.py:200-207.  [w k] is the ten-bit word in pix clock k; the result is the
    five-bit group on ed_2x during half clock h+1. *)
Definition gear10_5 (inverted : bool) (w : nat -> Z) (h : nat) : Z :=
  let d := w (Nat.div2 h) in
  let pol := if Nat.even h then slice 0 5 d else slice 5 5 d in
  if inverted then trunc 5 (Z.lnot pol) else pol.
(** OSERDES2 sends D1 of the slave first (s6.py:209-244): bit 0 first. *)
Definition out_bits (g : Z) : list bool := to_bits 5 g.

(** 5 to 10, input/datacapture.py:199-205.  State of one pix2x clock: dsr; [g h] is dsr2 in half
    clock h.  The pix register d loads at the end of every half clock with [load h]. *)
Record dg_st := { dg_dsr : Z; dg_d : Z }.
Definition dg_step (inverted : bool) (s : dg_st) (i : Z * bool) : dg_st :=
  {| dg_dsr := trunc 10 (slice 5 5 (dg_dsr s) + 32 * trunc 5 (fst i));
     dg_d := if snd i then (if inverted then trunc 10 (Z.lnot (dg_dsr s)) else dg_dsr s) else dg_d s |}.
Definition dg_run (inverted : bool) (g : nat -> Z) (pixedge : nat -> bool) (n : nat) : dg_st :=
  at_ (dg_step inverted) {| dg_dsr := 0; dg_d := 0 |} (fun h => (g h, pixedge h)) n.

(** S7 serialiser, output/hdmi/s7.py:22-72: D1..D8 of the master then D3, D4 of the slave. *)
Definition ser7_bits (inverted : bool) (w : Z) : list bool :=
  let d := if inverted then trunc 10 (Z.lnot w) else trunc 10 w in
  [bit d 0; bit d 1; bit d 2; bit d 3; bit d 4; bit d 5; bit d 6; bit d 7; bit d 8; bit d 9].
