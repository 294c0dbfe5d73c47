(** Model of the timing delay lines: a chain of [latency] registers.
    /repo/litevideo/input/__init__.py:30-43 (TimingDelayChannel) and
    /repo/litevideo/output/__init__.py:14-27 (TimingDelay).
    The record fields of the layout go through identical independent chains,
    so the model is generic in the type of the values; [z] is the reset value. *)
From Coq Require Import List.
From Verif Require Import Hdl.
Import ListNotations.

(** The registers, first one (nearest the input) at the head. *)
Definition dly_init {A : Type} (latency : nat) (z : A) : list A := repeat z latency.

(** Each register takes the value of the previous one (input/__init__.py:39-42,
    output/__init__.py:22-26). *)
Fixpoint dly_step {A : Type} (s : list A) (x : A) : list A :=
  match s with
  | [] => []
  | a :: r => x :: dly_step r a
  end.

(** Output: the last register, or the input itself if there is none
    (input/__init__.py:43, output/__init__.py:27). *)
Definition dly_out {A : Type} (s : list A) (x : A) : A := last s x.

Definition dly_run {A : Type} (latency : nat) (z : A) (i : nat -> A) (n : nat) : list A :=
  at_ dly_step (dly_init latency z) i n.
