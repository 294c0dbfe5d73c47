(** Specification vocabulary for character synchronisation: serial bit
    streams made of ten-bit words, least significant bit first. *)
From Coq Require Import ZArith List Bool.
From Verif Require Import Hdl TmdsSpec.
Import ListNotations.

(** Bit [t] of the serial stream made of the words [w 0], [w 1], ... *)
Definition serial (w : nat -> Z) (t : nat) : bool :=
  Z.testbit (w (t / 10)%nat) (Z.of_nat (t mod 10)).

(** The ten-bit word that starts at bit [t] of a serial stream. *)
Definition word_from (b : nat -> bool) (t : nat) : Z :=
  of_bits (map (fun j => b (t + j)%nat) (seq 0 10)).

(** What a receiver sees whose word boundary is [s] bits late: word [n] holds
    the bits [10n+s .. 10n+s+9]. *)
Definition misaligned (w : nat -> Z) (s : nat) (n : nat) : Z :=
  word_from (serial w) (10 * n + s).

(** The received words, preceded by the all-zero word the receiver holds at
    power-on. *)
Definition padded (x : nat -> Z) (n : nat) : Z :=
  match n with O => 0%Z | S m => x m end.

(** A control word is present, in clock [n], at bit alignment [p] of the
    twenty bits formed by the previous and the current received word. *)
Definition control_seen (x : nat -> Z) (n : nat) (p : Z) : Prop :=
  legal_control (word_from (serial (padded x)) (10 * n + Z.to_nat p)).
