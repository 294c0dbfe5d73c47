(** Model of the video output core in raw mode with a genlock stream.
    /repo/litevideo/output/core.py:66-73, 95-117 (reader, in VideoOutModel.v), 182-183 (timing),
    195-256 with mode == "raw".  Inputs and state are those of GenlockModel.v. *)
From Coq Require Import ZArith List Bool.
From Verif Require Import Hdl VideoOutModel GenlockModel.
Import ListNotations.
Open Scope Z_scope.

(** core.py:236-242: in raw mode a word is taken in blanking too. *)
Definition rg_dready (s : gl_st) (i : gl_in) : bool :=
  if negb (gli_valid i) then true else gl_svalid s i && gli_ready i.
(** The word sent in a clock, identified by its address (core.py:233, 254). *)
Definition rg_sent (s : gl_st) (i : gl_in) : option Z :=
  if gl_dv s i && (gl_svalid s i && gli_ready i) then Some (hd 0 (gl_reads s)) else None.
(** One clock, as [gl_step]; [delay]: the delay_base register (core.py:59, 97). *)
Definition rg_step (aw delay : Z) (depth : nat) (s : gl_st) (i : gl_in) : gl_st :=
  let d := gl_di depth s i in
  {| gl_dr := dr_step true aw delay (gl_dr s) d;
     gl_reads := (if gl_dv s i && rg_dready s i then tl (gl_reads s) else gl_reads s)
                 ++ (match dr_taken aw (gl_dr s) d with Some a => [a] | None => [] end) |}.
(** From reset (core.py:53: the FSM begins in IDLE; nothing read). *)
Definition rg_run aw delay depth (i : nat -> gl_in) (n : nat) : gl_st :=
  at_ (rg_step aw delay depth) {| gl_dr := dr_init; gl_reads := [] |} i n.
