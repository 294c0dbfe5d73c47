(** Model of the HDMI/DVI transmitter's PHY wiring and of the receiver's top
    level.  /repo/litevideo/output/hdmi/s6.py:245-275,
    /repo/litevideo/output/hdmi/s7.py:141-170,
    /repo/litevideo/input/__init__.py:46-138 (with hdmi=False). *)
From Coq Require Import ZArith List Bool.
From Verif Require Import Hdl TmdsModel CharSyncModel ChanSyncModel AnalysisModel.
Import ListNotations.
Open Scope Z_scope.

(** output/common.py:40-48, phy_layout of the rgb and ycbcr422 modes. *)
Record px := { px_r : Z; px_g : Z; px_b : Z; px_hs : bool; px_vs : bool; px_de : bool }.

(** s6.py:263-275, s7.py:158-170: input of the encoder of channel [k].  The
    [valid] signal of the stream is not used by the code. *)
Definition phy_char (k : nat) (p : px) : enc_in :=
  match k with
  | O => {| ei_d := px_b p; ei_c := b2z (px_hs p) + 2 * b2z (px_vs p); ei_de := px_de p |}
  | S O => {| ei_d := px_g p; ei_c := 0; ei_de := px_de p |}
  | _ => {| ei_d := px_r p; ei_c := 0; ei_de := px_de p |}
  end.

(** Words sent on channel [k], from the first clock after power-on: the output
    register of that channel's encoder (s6.py:192-194, 252-254). *)
Definition tx_word (p : nat -> px) (k n : nat) : Z := e_out (enc_at (fun t => phy_char k (p t)) (S n)).

(** ** Receiver, input/__init__.py:46-138 *)

(** One entry per channel in the first two lists. *)
Record rx_st := {
  rx_cs : list cs_st;     (* 62-64 *)
  rx_dec : list dec_st;   (* 70-75 *)
  rx_cy : cy_st;          (* 77-85 *)
  rx_sp : sp_st;          (* 124-131 *)
  rx_rd : rd_st           (* 133-138 *)
}.

Definition rx_init : rx_st :=
  {| rx_cs := repeat cs_init 3; rx_dec := repeat dec_init 3; rx_cy := cy_init 3 8;
     rx_sp := sp_init; rx_rd := rd_init |}.

Definition rx_cs_of (s : rx_st) (k : nat) : cs_st := nth k (rx_cs s) cs_init.
Definition rx_dec_of (s : rx_st) (k : nat) : dec_st := nth k (rx_dec s) dec_init.

(** The output record of Decoding (decoding.py:41). *)
Definition dec_chan (d : dec_st) : chan :=
  {| ch_raw := d_raw d; ch_d := d_d d; ch_c := d_c d; ch_de := d_de d |}.

(** input/__init__.py:72-75. *)
Definition rx_dec_in (s : rx_st) (k : nat) : dec_in :=
  {| di_valid := cs_synced (rx_cs_of s k); di_word := cs_data (rx_cs_of s k) |}.

(** input/__init__.py:78-85. *)
Definition rx_cy_in (s : rx_st) : cy_in :=
  {| cyi_valid := d_valid (rx_dec_of s 0) && d_valid (rx_dec_of s 1) && d_valid (rx_dec_of s 2);
     cyi_data := fun k => dec_chan (rx_dec_of s k) |}.

(** input/__init__.py:126-131 and analysis.py:33-39. *)
Definition rx_sp_in (s : rx_st) : sp_in :=
  let o := cy_out (rx_cy s) in
  {| spi_valid := cy_synced (rx_cy s); spi_de := ch_de (o 0%nat);
     spi_c := (bit (ch_c (o 0%nat)) 0, bit (ch_c (o 0%nat)) 1);
     spi_d := (ch_d (o 0%nat), ch_d (o 1%nat), ch_d (o 2%nat)) |}.

(** input/__init__.py:134-138. *)
Definition rx_rd_in (s : rx_st) : rd_in :=
  {| rdi_valid := sp_valid (rx_sp s); rdi_vsync := sp_vsync (rx_sp s); rdi_de := sp_de (rx_sp s) |}.

(** One clock of the pix domain; [raw k] is the ten-bit word captured on
    channel [k] (input/__init__.py:64).  Eight control words are required for
    lock (charsync.py:13), buffers have eight places (chansync.py:46), 11-bit
    resolution counters (analysis.py:75). *)
Definition rx_step (s : rx_st) (raw : nat -> Z) : rx_st :=
  {| rx_cs := map (fun k => cs_step 8 (rx_cs_of s k) (raw k)) (seq 0 3);
     rx_dec := map (fun k => dec_step (rx_dec_of s k) (rx_dec_in s k)) (seq 0 3);
     rx_cy := cy_step 3 8 (rx_cy s) (rx_cy_in s);
     rx_sp := sp_step (rx_sp s) (rx_sp_in s);
     rx_rd := rd_step 11 (rx_rd s) (rx_rd_in s) |}.

Definition rx_run (s0 : rx_st) (raw : nat -> nat -> Z) (n : nat) : rx_st := at_ rx_step s0 raw n.
