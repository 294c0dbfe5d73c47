(** I2C bus specification used for the EDID theorems. *)
From Coq Require Import ZArith List Bool.
From Verif Require Import Hdl.
Import ListNotations.
Open Scope Z_scope.

(** A bus observation: (SCL, SDA). *)
Definition obs := (bool * bool)%type.

(** Bits a listener reads: SDA whenever SCL goes high. *)
Fixpoint bits_seen (prev_scl : bool) (l : list obs) : list bool :=
  match l with
  | [] => []
  | (scl, sda) :: r => (if scl && negb prev_scl then [sda] else []) ++ bits_seen scl r
  end.

(** Bits of a byte, most significant first. *)
Definition byte_bits (x : Z) : list bool := map (fun k => Z.testbit x (7 - Z.of_nat k)) (seq 0 8).

(** What a master does in one bit slot, giving the level [m] to SDA: any
    activity on SDA while SCL is low, at least one observation long, the final
    level for at least one more, then SCL high for [h+1] observations. *)
Definition slot (m x : bool) (xs : list bool) (h : nat) : list obs :=
  map (fun x => (false, x)) (x :: xs) ++ [(false, m)] ++ repeat (true, m) (S h).

(** A slot with some timing. *)
Inductive is_slot (m : bool) : list obs -> Prop :=
  | Is_slot : forall x xs h, is_slot m (slot m x xs h).

Inductive is_slots : list bool -> list obs -> Prop :=
  | No_slots : is_slots [] []
  | More_slots : forall m ms w ws, is_slot m w -> is_slots ms ws -> is_slots (m :: ms) (w ++ ws).

(** Start condition: SDA falls while SCL is high. *)
Definition start_cond (b : nat) : list obs := repeat (true, false) (S b).

(** Bits given by the master while it reads [n] bytes: released during the
    data, acknowledge after each byte but the last. *)
Definition read_slots (n : nat) : list bool :=
  concat (map (fun k => repeat true 8 ++ [Nat.eqb (S k) n]) (seq 0 n)).

(** Random read: start, address 0x50 + write, offset, repeated start, address
    0x50 + read, [n] bytes; the master releases SDA in the acknowledge slots of
    the slave.  [dev] is the seven-bit device address. *)
Inductive is_random_read (offset : Z) (n : nat) : list obs -> Prop :=
  | Random_read : forall a b w1 w2 w3,
      is_slots (byte_bits 160 ++ [true] ++ byte_bits offset ++ [true] ++ [true]) w1 ->
      is_slots (byte_bits 161 ++ [true]) w2 ->
      is_slots (read_slots n) w3 ->
      is_random_read offset n (start_cond a ++ w1 ++ start_cond b ++ w2 ++ w3).

(** What the listener must read: acknowledges (0) from the slave and the
    memory bytes, with the master's acknowledge after each. *)
Definition expected_read (byte : nat -> Z) (offset : Z) (n : nat) : list bool :=
  byte_bits 160 ++ [false] ++ byte_bits offset ++ [false] ++ [true] ++
  byte_bits 161 ++ [false] ++
  concat (map (fun k => byte_bits (byte k) ++ [Nat.eqb (S k) n]) (seq 0 n)).
