(** Model of the pins of the EDID slave in all their variants.
    /repo/litevideo/input/edid.py:41-101. *)
From Coq Require Import ZArith List Bool.
From Verif Require Import Hdl EdidModel.
Import ListNotations.
Open Scope Z_scope.

(** Which attributes the pads have: [scl.inverted] (63), separate pins [sda_pu] and [sda_pd] (68), [sda.inverted] (70),
    [hpd_notif] and its [inverted] (42-43), [None] without the pin. *)
Record ep_pads := { ep_scl_inv : bool; ep_split : bool; ep_sda_inv : bool; ep_notif : option bool }.

(** Levels of the input pins in one clock and the hpd_en register. *)
Record ep_in := { epi_scl : bool; epi_sda : bool; epi_notif : bool; epi_hpd : bool }.
(** The slave and the two registers of the synchroniser of hpd_notif (46, 48). *)
Record ep_st := { ep_ed : ed_st; ep_n0 : bool; ep_n1 : bool }.
Definition ep_init : ep_st := {| ep_ed := ed_init; ep_n0 := false; ep_n1 := false |}.

Section Pads.
Variable mem : Z -> Z.
Variable ab : Z.
Variable P : ep_pads.

(** 63-66, 69-73, 80-83: what goes into the synchronisers. *)
Definition ep_scl_raw (x : ep_in) : bool := if ep_scl_inv P then negb (epi_scl x) else epi_scl x.
Definition ep_sda_raw (x : ep_in) : bool := if ep_split P then (if ep_sda_inv P then negb (epi_sda x) else epi_sda x) else epi_sda x.
Definition ep_step (s : ep_st) (x : ep_in) : ep_st :=
  let e := ep_ed s in
  {| ep_ed := {| es_scl0 := ep_scl_raw x; es_scl1 := es_scl0 e;
                 es_sda0 := ep_sda_raw x; es_sda1 := es_sda0 e;
                 es_count := trunc 6 (es_count e + 1);
                 es_carry := Z.testbit (es_count e + 1) 6;
                 es_scl_i := if es_carry e then es_scl1 e else es_scl_i e;
                 es_sda_i := if es_carry e then es_sda1 e else es_sda_i e;
                 es_core := ed_step mem ab (epi_hpd x) (es_scl_i e) (es_sda_i e) (es_core e) |};
     ep_n0 := match ep_notif P with Some true => negb (epi_notif x) | _ => epi_notif x end;
     ep_n1 := ep_n0 s |}.
(** 42-50: what software reads. *)
Definition ep_status (s : ep_st) : bool := match ep_notif P with None => true | Some _ => ep_n1 s end.
(** 75-78: sda_pu and sda_pd; without them the pin itself is driven low (81), [true]: driven. *)
Definition ep_pu (s : ep_st) : bool := false.
Definition ep_pd (s : ep_st) : bool := ec_drv (es_core (ep_ed s)).
Definition ep_run (x : nat -> ep_in) (n : nat) : ep_st := at_ ep_step ep_init x n.
End Pads.
