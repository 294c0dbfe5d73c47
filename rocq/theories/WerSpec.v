(** Specification of the word error count. *)
From Coq Require Import ZArith List Bool.
From Verif Require Import Hdl TmdsSpec.
Import ListNotations.

(** More than four transitions in the low nine bits, and not a control word. *)
Definition word_error (w : Z) : bool :=
  Z.ltb 4 (transitions (to_bits 9 w)) &&
  negb (existsb (fun c => Z.eqb w (of_bits (dvi_control c))) [0; 1; 2; 3]%Z).

(** Number of erroneous words among [x a .. x (b-1)]. *)
Definition errors_between (x : nat -> Z) (a b : nat) : Z :=
  Z.of_nat (length (filter (fun k => word_error (x k)) (seq a (b - a)))).
