(** Model of the clock generators and of the start of the receive paths after lock.
    /repo/litevideo/input/clocking.py:47-69 (Spartan-6), 139-169 and 187-213 (Series 7),
    71-86 and 226-239 (lock, resets), /repo/litevideo/output/hdmi/s7.py:99-123,
    /repo/litevideo/output/hdmi/s6.py:122-131.
    The PLL and MMCM primitives are taken to be ideal: an input clock is multiplied and
    divided as configured, and outputs of phase 0 rise together. *)
From Coq Require Import ZArith QArith List Bool Arith.
From Verif Require Import Hdl SerialModel GearModel.
Import ListNotations.
Open Scope nat_scope.

(** * Frequencies *)

(** Multiplier and input divider; the dividers of the outputs. *)
Record pll := { pl_mult : positive; pl_div : positive; pl_outs : list positive }.
Definition vco (p : pll) (f : Q) : Q := (f * (Zpos (pl_mult p) # pl_div p))%Q.
(** Output [k]. *)
Definition pll_out (p : pll) (f : Q) (k : nat) : Q := (vco p f / (Zpos (nth k (pl_outs p) 1%positive) # 1))%Q.

(** input/clocking.py:50-53: pix10x, pix2x, pix. *)
Definition s6_in_pll : pll := {| pl_mult := 10; pl_div := 1; pl_outs := [1; 5; 10]%positive |}.
(** input/clocking.py:146-155: pix, pix1p25x, pix5x. *)
Definition s7_in_mmcm : pll := {| pl_mult := 5; pl_div := 1; pl_outs := [5; 4; 1]%positive |}.
(** input/clocking.py:193-199 (split clocking): pix_o, unused, pix5x_o; fed by pix. *)
Definition s7_in_split : pll := {| pl_mult := 10; pl_div := 1; pl_outs := [10; 1; 2]%positive |}.
(** input/clocking.py:117: the accepted input frequencies. *)
Definition s7_in_freqs : list Q := [(74250000 # 1); (148500000 # 1)]%Q.
(** output/hdmi/s7.py:106-112: pix, pix5x; fed by 100 MHz. *)
Definition s7_out_mmcm : pll := {| pl_mult := 30; pl_div := 2; pl_outs := [10; 2]%positive |}.
(** output/hdmi/s6.py:125-128: pix10x, pix2x, pix; fed by the clock generator. *)
Definition s6_out_pll : pll := {| pl_mult := 10; pl_div := 1; pl_outs := [1; 5; 10]%positive |}.

(** * Edges and resets *)

(** Instants are [m] to a VCO period; output with divider [d] and phase 0. *)
Definition pll_edge (m d t : nat) : bool := t mod (d * m) =? 0.

(** AsyncResetSynchronizer (two flip-flops preset while the clock generator is not locked),
    clocking.py:230-233.  A flip-flop whose preset ends at its clock edge may miss the
    edge ([race]). *)
Record ars_st := { ars_p : bool; ars_0 : bool; ars_1 : bool }.
Definition ars_step (locked edge race : bool) (s : ars_st) : ars_st :=
  {| ars_p := negb locked;
     ars_0 := if negb locked then true else if edge then ars_p s && race else ars_0 s;
     ars_1 := if negb locked then true else if edge then ars_0 s else ars_1 s |}.

(** The Gearbox of datacapture.py:387-392 resets both its sides while either domain is in
    reset (Migen: rst = ResetSignal(idomain) | ResetSignal(odomain)). *)
Definition gb_step_r (rst : bool) (s : gb_st) (i : gb_in) : gb_st :=
  let n := gb_step 8 10 10 8 s i in
  let z := gb_init 10 in
  {| gb_mem := if rst && gbi_w i then gb_mem z else gb_mem n;
     gb_wp := if rst && gbi_w i then gb_wp z else gb_wp n;
     gb_rp := if rst && gbi_r i then gb_rp z else gb_rp n;
     gb_o := if rst && gbi_r i then gb_o z else gb_o n |}.

(** Lock of the MMCM, edges of pix1p25x and pix, deserialised group, races. *)
Record cr_in := { cri_lock : bool; cri_g : gb_in; cri_rw : bool; cri_rr : bool }.
Record cr_st := { cr_w : ars_st; cr_r : ars_st; cr_g : gb_st }.
Definition cr_rst (s : cr_st) : bool := ars_1 (cr_w s) || ars_1 (cr_r s).
Definition cr_step (inverted : bool) (s : cr_st) (x : cr_in) : cr_st :=
  {| cr_w := ars_step (cri_lock x) (gbi_w (cri_g x)) (cri_rw x) (cr_w s);
     cr_r := ars_step (cri_lock x) (gbi_r (cri_g x)) (cri_rr x) (cr_r s);
     cr_g := gb_step_r (cr_rst s) (cr_g s) (cap7_in inverted (cri_g x)) |}.
Definition cr_run (inverted : bool) (s0 : cr_st) (x : nat -> cr_in) (n : nat) : cr_st := at_ (cr_step inverted) s0 x n.

(** * Spartan-6: start of the 5:10 gear after lock *)

(** One instant is an edge of pix2x; [c6_pix] says whether pix rises too.  The reset
    synchronisers of pix2x and pix (input/clocking.py:82-85) reset dsr and d of
    datacapture.py:199-205; [c6_g] is dsr2, [c6_rw] and [c6_rr] are the races of the two
    synchronisers. *)
Record c6_in := { c6_lock : bool; c6_pix : bool; c6_g : Z; c6_rw : bool; c6_rr : bool }.
Record c6_st := { c6_w : ars_st; c6_r : ars_st; c6_d : dg_st }.
Definition c6_step (inverted : bool) (s : c6_st) (x : c6_in) : c6_st :=
  let n := dg_step inverted (c6_d s) (c6_g x, c6_pix x) in
  {| c6_w := ars_step (c6_lock x) true (c6_rw x) (c6_w s);
     c6_r := ars_step (c6_lock x) (c6_pix x) (c6_rr x) (c6_r s);
     c6_d := {| dg_dsr := if ars_1 (c6_w s) then 0%Z else dg_dsr n;
                dg_d := if c6_pix x && ars_1 (c6_r s) then 0%Z else dg_d n |} |}.
Definition c6_run (inverted : bool) (s0 : c6_st) (x : nat -> c6_in) (n : nat) : c6_st := at_ (c6_step inverted) s0 x n.
