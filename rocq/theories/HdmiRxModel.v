(** Model of the receiver's top level with hdmi=True.
    /repo/litevideo/input/__init__.py:46-122 and 133-138. *)
From Coq Require Import ZArith List Bool.
From Verif Require Import Hdl TmdsModel CharSyncModel ChanSyncModel AnalysisModel DelayModel Terc4Model HdmiModel.
Import ListNotations.
Open Scope Z_scope.

(** [rh_rx]: the parts the receiver has in both variants; [rh_t4]: decode_terc4 (88-95);
    the three delay lines (108-110). *)
Record rh_st := { rh_rx : rx_st; rh_t4 : tx_st; rh_d0 : list chan; rh_d1 : list chan; rh_d2 : list chan }.
Definition rh_init : rh_st :=
  {| rh_rx := rx_init; rh_t4 := tx_init; rh_d0 := dly_init 1 chan0; rh_d1 := dly_init 1 chan0; rh_d2 := dly_init 1 chan0 |}.

(** input/__init__.py:90-95. [dvi] is the dvimode storage register (decoding.py:196). *)
Definition rh_t4_in (s : rh_st) (dvi : bool) : tx_in :=
  let o := cy_out (rx_cy (rh_rx s)) in
  {| txi_valid := cy_synced (rx_cy (rh_rx s)); txi_0 := o 0%nat; txi_1 := o 1%nat; txi_2 := o 2%nat; txi_dvi := dvi |}.

(** input/__init__.py:97-98, 112-122 and analysis.py:33-39: the delayed channels, the DE of
    decode_terc4, the undelayed valid. *)
Definition rh_sp_in (s : rh_st) : sp_in :=
  let o := cy_out (rx_cy (rh_rx s)) in
  let c0 := dly_out (rh_d0 s) (o 0%nat) in
  {| spi_valid := cy_synced (rx_cy (rh_rx s)); spi_de := tx_de_o (rh_t4 s);
     spi_c := (bit (ch_c c0) 0, bit (ch_c c0) 1);
     spi_d := (ch_d c0, ch_d (dly_out (rh_d1 s) (o 1%nat)), ch_d (dly_out (rh_d2 s) (o 2%nat))) |}.

(** One pixel clock; inputs: the captured words and the dvimode register. *)
Definition rh_step (s : rh_st) (i : (nat -> Z) * bool) : rh_st :=
  let f := rx_step (rh_rx s) (fst i) in
  let o := cy_out (rx_cy (rh_rx s)) in
  {| rh_rx := {| rx_cs := rx_cs f; rx_dec := rx_dec f; rx_cy := rx_cy f;
                 rx_sp := sp_step (rx_sp (rh_rx s)) (rh_sp_in s); rx_rd := rx_rd f |};
     rh_t4 := tx_step (rh_t4 s) (rh_t4_in s (snd i));
     rh_d0 := dly_step (rh_d0 s) (o 0%nat); rh_d1 := dly_step (rh_d1 s) (o 1%nat); rh_d2 := dly_step (rh_d2 s) (o 2%nat) |}.
Definition rh_run (s0 : rh_st) (raw : nat -> nat -> Z) (dvi : nat -> bool) (n : nat) : rh_st :=
  at_ rh_step s0 (fun t => (raw t, dvi t)) n.
