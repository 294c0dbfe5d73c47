(** C134: every variant of the EDID pins. *)
From Coq Require Import ZArith List Bool Lia Arith.
From Verif Require Import Hdl EdidModel EdidSpec EdidPinSpec EdidLink EdidProps EdidPinProofs EdidPinProps EdidPadsModel.
Import ListNotations.
Open Scope nat_scope.

(** The board: a two-wire bus with pull-up resistors.  [c] and [m]: levels the master gives to SCL and SDA.  SDA is low if the master or
    the slave pulls it.  A pin called inverted is behind an inverter. *)
Definition board_sda (m pulled : bool) : bool := m && negb pulled.
Definition on_board (mem : Z -> Z) (ab : Z) (P : ep_pads) (c m : nat -> bool) (x : nat -> ep_in) : Prop :=
  forall t, epi_scl (x t) = xorb (ep_scl_inv P) (c t) /\
            epi_sda (x t) = xorb (ep_split P && ep_sda_inv P) (board_sda (m t) (ep_pd (ep_run mem ab P x t))).
(** SDA on the board in clock [t]. *)
Definition sda_wire mem ab P (m : nat -> bool) (x : nat -> ep_in) (t : nat) : bool := board_sda (m t) (ep_pd (ep_run mem ab P x t)).

(** On such a board the slave is the one of EdidModel.v, whatever the pads. *)
Lemma same_slave : forall mem ab P c m x, on_board mem ab P c m x ->
  let i t := {| edi_scl := c t; edi_sda := m t; edi_hpd := epi_hpd (x t) |} in
  forall t, ep_ed (ep_run mem ab P x t) = edid_run mem ab i t.
Proof.
  intros mem ab P c m x H i. induction t as [|t IH]; [reflexivity|].
  change (ep_run mem ab P x (S t)) with (ep_step mem ab P (ep_run mem ab P x t) (x t)).
  change (edid_run mem ab i (S t)) with (edid_step mem ab (edid_run mem ab i t) (i t)).
  destruct (H t) as [H1 H2].
  assert (A : ep_scl_raw P (x t) = c t) by (unfold ep_scl_raw; rewrite H1; destruct (ep_scl_inv P), (c t); reflexivity).
  assert (B : ep_sda_raw P (x t) = ed_line (edid_run mem ab i t) (i t)).
  { unfold ep_sda_raw. rewrite H2. unfold ep_pd, ed_line, board_sda. rewrite IH. cbn [edi_sda i].
    destruct (ep_split P), (ep_sda_inv P), (m t), (ec_drv (es_core (edid_run mem ab i t))); reflexivity. }
  unfold ep_step, edid_step. cbn [ep_ed]. rewrite A, B, IH. reflexivity.
Qed.

(** A master with the timing of C133 reads the memory in every variant of the pins; SDA is never driven high; and software reads the
    level of the hot-plug pin of two clocks ago, the right way round, or a 1 if there is none. *)
Theorem C134_every_pinout : forall mem ab P c m x,
  on_board mem ab P c m x ->
  (forall T offset n L l rs, (0 <= offset < 256)%Z ->
     128 <= t_low L -> 64 <= t_setup L -> 64 <= t_high L -> 64 <= t_hold L ->
     128 <= T -> (forall t, T <= t + 192 -> epi_hpd (x t) = true) ->
     (forall t, T <= t + 128 -> t < T -> c t = true /\ sda_wire mem ab P m x t = true) ->
     pin_random_read L offset n l rs -> (forall q, q < length l -> (c (T + q), m (T + q)) = nth q l (true, true)) ->
     map (fun r => sda_wire mem ab P m x (T + r)) rs = expected_read (fun k => mem ((offset + Z.of_nat k) mod 2 ^ ab)%Z) offset n) /\
  (forall t, ep_pu (ep_run mem ab P x t) = false) /\
  (forall t, ep_status P (ep_run mem ab P x (t + 2)) = match ep_notif P with None => true | Some inv => xorb inv (epi_notif (x t)) end).
Proof.
  intros mem ab P c m x H. split; [|split; [reflexivity|]].
  - intros T offset n L l rs Ho A1 A2 A3 A4 HT Hh HF HR HP.
    set (i := fun t => {| edi_scl := c t; edi_sda := m t; edi_hpd := epi_hpd (x t) |}).
    assert (E : forall t, sda_wire mem ab P m x t = sda_at mem ab i t).
    { intros t. unfold sda_wire, ep_pd, sda_at. rewrite (same_slave mem ab P c m x H). reflexivity. }
    rewrite (map_ext _ (fun r => sda_at mem ab i (T + r))) by (intros r; apply E).
    apply (C133_pins_partial mem ab i T offset n L l rs Ho A1 A2 A3 A4); [|exact HR|exact HP].
    split; [exact HT|]. split; [exact Hh|]. intros t T1 T2. rewrite <- E. exact (HF t T1 T2).
  - intros t. replace (t + 2) with (S (S t)) by lia. unfold ep_status.
    change (ep_run mem ab P x (S (S t))) with (ep_step mem ab P (ep_step mem ab P (ep_run mem ab P x t) (x t)) (x (S t))).
    unfold ep_step. cbn [ep_n1 ep_n0]. destruct (ep_notif P) as [[|]|]; [destruct (epi_notif (x t))|destruct (epi_notif (x t))|]; reflexivity.
Qed.
Print Assumptions C134_every_pinout.

(** A board with everything inverted exists for every master. *)
Definition all_inverted : ep_pads := {| ep_scl_inv := true; ep_split := true; ep_sda_inv := true; ep_notif := Some true |}.
Lemma board_exists : forall mem ab P (c m hp nt : nat -> bool), exists x, on_board mem ab P c m x /\ forall t, epi_hpd (x t) = hp t /\ epi_notif (x t) = nt t.
Proof.
  intros mem ab P c m hp nt.
  set (pin := fun (s : ep_st) (t : nat) => {| epi_scl := xorb (ep_scl_inv P) (c t); epi_sda := xorb (ep_split P && ep_sda_inv P) (board_sda (m t) (ep_pd s));
                                     epi_notif := nt t; epi_hpd := hp t |}).
  set (st := fix st (t : nat) : ep_st := match t with O => ep_init | S t => ep_step mem ab P (st t) (pin (st t) t) end).
  exists (fun t => pin (st t) t).
  assert (E : forall t, ep_run mem ab P (fun t => pin (st t) t) t = st t).
  { induction t as [|t IH]; [reflexivity|]. change (ep_run mem ab P (fun t => pin (st t) t) (S t)) with (ep_step mem ab P (ep_run mem ab P (fun t => pin (st t) t) t) (pin (st t) t)).
    rewrite IH. reflexivity. }
  split; [|intros t; split; reflexivity]. intros t. rewrite E. split; reflexivity.
Qed.
(** The master of the example of C133 on it. *)
Example C134_example : exists x, on_board default_mem 8 all_inverted (fun t => edi_scl (ex_master (ex_levels 64 8) t)) (fun t => edi_sda (ex_master (ex_levels 64 8) t)) x /\
  map (fun r => sda_wire default_mem 8 all_inverted (fun t => edi_sda (ex_master (ex_levels 64 8) t)) x (128 + r)) ex_looks =
  byte_bits 160 ++ [false] ++ byte_bits 8 ++ [false] ++ [true] ++ byte_bits 161 ++ [false] ++ byte_bits 5 ++ [true].
Proof.
  destruct (board_exists default_mem 8 all_inverted (fun t => edi_scl (ex_master (ex_levels 64 8) t)) (fun t => edi_sda (ex_master (ex_levels 64 8) t)) (fun _ => true) (fun _ => true))
    as (x & X & HX).
  exists x. split; [exact X|]. rewrite <- C133_example. apply map_ext. intros r. unfold sda_wire, ep_pd, sda_at.
  rewrite (same_slave default_mem 8 all_inverted _ _ x X). unfold ed_line, board_sda. f_equal. f_equal. f_equal. f_equal.
  set (t := 128 + r). clearbody t. clear r. induction t as [|t IH]; [reflexivity|].
  set (i1 := fun t => {| edi_scl := _; edi_sda := _; edi_hpd := epi_hpd (x t) |}) in *. change (edid_run default_mem 8 i1 (S t)) with (edid_step default_mem 8 (edid_run default_mem 8 i1 t) (i1 t)).
  change (edid_run default_mem 8 (ex_master (ex_levels 64 8)) (S t)) with
    (edid_step default_mem 8 (edid_run default_mem 8 (ex_master (ex_levels 64 8)) t) (ex_master (ex_levels 64 8) t)).
  rewrite IH. f_equal. unfold i1. destruct (HX t) as [-> _]. unfold ex_master. reflexivity.
Qed.
