(** Model of the delay taps of the Series 7 receiver: commands from software, the tap
    counter, and its way back to software.
    /repo/litevideo/input/datacapture.py:293-306, 333-346, 365-372, 420-440 (one of the two
    delay lines; the other one differs in the bits of the command register).
    migen.genlib.cdc.BusSynchronizer is not in /repo and is written from knowledge of the
    library.  Instants and edges are those of CdcModel.v; in addition the bits of the bus
    that is sampled while it changes, and the toggle that changes together with it, take
    the old or the new value each. *)
From Coq Require Import ZArith List Bool.
From Verif Require Import Hdl CdcModel.
Import ListNotations.
Open Scope Z_scope.

(** * BusSynchronizer *)

(** PulseSynchronizer whose toggle may be sampled early at a common edge. *)
Definition ps_step_r (ea eb i race : bool) (s : ps_st) : ps_st :=
  let t' := if ea && i then negb (ps_t s) else ps_t s in
  {| ps_t := t';
     ps_m0 := if eb then (if race then t' else ps_t s) else ps_m0 s;
     ps_m1 := if eb then ps_m0 s else ps_m1 s;
     ps_r := if eb then ps_m1 s else ps_r s |}.

(** Handshake: starter, ping, its register in the destination domain, pong. *)
Record bs_ctl := { bs_start : bool; bs_ping : ps_st; bs_pf : bool; bs_pong : ps_st }.
Record bs_st := { bs_c : bs_ctl; bs_cnt : Z; bs_ib : Z; bs_d0 : Z; bs_d1 : Z; bs_o : Z }.
Definition bs_ctl_init : bs_ctl := {| bs_start := true; bs_ping := ps_init; bs_pf := false; bs_pong := ps_init |}.
(** [timeout]: reset value of the wait timer, 128 by default. *)
Definition bs_init (timeout : Z) : bs_st :=
  {| bs_c := bs_ctl_init; bs_cnt := timeout; bs_ib := 0; bs_d0 := 0; bs_d1 := 0; bs_o := 0 |}.

(** Edges of the source and destination clocks, input, and the resolution of the races. *)
Record bs_in := { bsi_a : bool; bsi_b : bool; bsi_i : Z; bsi_rt : bool; bsi_rd : Z }.
(** The ping is started by the starter, by a pong or by the timer. *)
Definition bs_go (done : bool) (c : bs_ctl) : bool := bs_start c || ps_o (bs_pong c) || done.
Definition bs_ctl_step (a b rt done : bool) (c : bs_ctl) : bs_ctl :=
  {| bs_start := if a then false else bs_start c;
     bs_ping := ps_step_r a b (bs_go done c) rt (bs_ping c);
     bs_pf := if b then ps_o (bs_ping c) else bs_pf c;
     bs_pong := ps_step b a (bs_pf c) (bs_pong c) |}.
Definition bs_step (timeout : Z) (s : bs_st) (x : bs_in) : bs_st :=
  let done := bs_cnt s =? 0 in
  let ib' := if bsi_a x && ps_o (bs_pong (bs_c s)) then bsi_i x else bs_ib s in
  {| bs_c := bs_ctl_step (bsi_a x) (bsi_b x) (bsi_rt x) done (bs_c s);
     bs_cnt := if bsi_a x then (if bs_go done (bs_c s) then timeout else bs_cnt s - 1) else bs_cnt s;
     bs_ib := ib';
     bs_d0 := if bsi_b x then Z.lxor (bs_ib s) (Z.land (bsi_rd x) (Z.lxor (bs_ib s) ib')) else bs_d0 s;
     bs_d1 := if bsi_b x then bs_d0 s else bs_d1 s;
     bs_o := if bsi_b x && bs_pf (bs_c s) then bs_d1 s else bs_o s |}.
Definition bs_run (timeout : Z) (x : nat -> bs_in) (n : nat) : bs_st := at_ (bs_step timeout) (bs_init timeout) x n.

(** * One delay line with its commands and its read-back *)

(** Edges of the system clock and of pix1p25x; the bits of a write of the command
    register in the current system clock (434-440); the races of the read-back. *)
Record tp_in := { tpi_sys : bool; tpi_pix : bool; tpi_rst : bool; tpi_inc : bool; tpi_dec : bool; tpi_rt : bool; tpi_rd : Z }.
Record tp_st := { tp_rst : ps_st; tp_inc : ps_st; tp_dec : ps_st; tp_cnt : Z; tp_bs : bs_st }.
Definition tp_init : tp_st :=
  {| tp_rst := ps_init; tp_inc := ps_init; tp_dec := ps_init; tp_cnt := 0; tp_bs := bs_init 128 |}.
(** IDELAYE2 in VARIABLE mode with IDELAY_VALUE 0 (293-306): LD loads 0, CE counts up or
    down by INC modulo 32; wired as in 426-432. *)
Definition tap_step (ld ce inc : bool) (c : Z) : Z :=
  if ld then 0 else if ce then (if inc then (c + 1) mod 32 else (c - 1) mod 32) else c.
Definition tp_step (s : tp_st) (x : tp_in) : tp_st :=
  let a := tpi_sys x in let b := tpi_pix x in
  {| tp_rst := ps_step a b (tpi_rst x) (tp_rst s);
     tp_inc := ps_step a b (tpi_inc x) (tp_inc s);
     tp_dec := ps_step a b (tpi_dec x) (tp_dec s);
     tp_cnt := if b then tap_step (ps_o (tp_rst s)) (ps_o (tp_inc s) || ps_o (tp_dec s)) (ps_o (tp_inc s)) (tp_cnt s) else tp_cnt s;
     tp_bs := bs_step 128 (tp_bs s) {| bsi_a := b; bsi_b := a; bsi_i := tp_cnt s; bsi_rt := tpi_rt x; bsi_rd := tpi_rd x |} |}.
Definition tp_run (x : nat -> tp_in) (n : nat) : tp_st := at_ tp_step tp_init x n.
(** What software reads (366-369). *)
Definition tp_read (s : tp_st) : Z := bs_o (tp_bs s).
