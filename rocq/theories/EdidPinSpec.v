(** An I2C master at the pins, clock by clock. *)
From Coq Require Import ZArith List Bool.
From Verif Require Import Hdl EdidSpec.
Import ListNotations.
Open Scope nat_scope.

(** Timing limits in clocks: SCL low, SDA steady before SCL rises, SCL high, SDA low before SCL falls after a start. *)
Record limits := { t_low : nat; t_setup : nat; t_high : nat; t_hold : nat }.

(** Levels the master gives to SCL and SDA during one bit, one entry for each clock: [xs] is anything it does to SDA before it gives it
    the level [m]. *)
Definition pin_slot (m : bool) (xs : list bool) (l h : nat) : list obs :=
  map (fun x => (false, x)) xs ++ repeat (false, m) l ++ repeat (true, m) h.

(** [pin_slots T p ms w rs]: the bits [ms] are sent with the levels [w], which begin in clock [p], and the master looks at SDA in the
    clocks [rs], once for each bit, at any time while SCL is high. *)
Inductive pin_slots (T : limits) : nat -> list bool -> list obs -> list nat -> Prop :=
  | No_pin_slots : forall p, pin_slots T p [] [] []
  | More_pin_slots : forall p m ms xs l h r w rs,
      t_low T <= length xs + l -> t_setup T <= l -> t_high T <= h -> r < h ->
      pin_slots T (p + (length xs + l + h)) ms w rs ->
      pin_slots T p (m :: ms) (pin_slot m xs l h ++ w) ((p + (length xs + l + r)) :: rs).

(** The random read of EdidSpec.v. *)
Inductive pin_random_read (T : limits) (offset : Z) (n : nat) : list obs -> list nat -> Prop :=
  | Pin_random_read : forall a b w1 w2 w3 r1 r2 r3,
      t_hold T <= a -> t_hold T <= b ->
      pin_slots T a (byte_bits 160 ++ [true] ++ byte_bits offset ++ [true] ++ [true]) w1 r1 ->
      pin_slots T (a + length w1 + b) (byte_bits 161 ++ [true]) w2 r2 ->
      pin_slots T (a + length w1 + b + length w2) (read_slots n) w3 r3 ->
      pin_random_read T offset n (repeat (true, false) a ++ w1 ++ repeat (true, false) b ++ w2 ++ w3) (r1 ++ r2 ++ r3).
