(** Model of the video output core with a genlock stream: its timing comes from
    the stream, the frame reader waits for the stream's vsync.
    /repo/litevideo/output/core.py:66-73, 95-117 (reader, in VideoOutModel.v),
    182-183 (timing generator), 195-256 (core; rgb or ycbcr422 mode). *)
From Coq Require Import ZArith List Bool.
From Verif Require Import Hdl VideoOutModel FifoModel.
Import ListNotations.
Open Scope Z_scope.

(** Inputs of one clock: parameter set on offer and its base and length in words,
    valid/de/vsync of the genlock stream, willingness of the memory to take a
    command, arrival of the oldest outstanding data, readiness of the consumer. *)
Record gl_in := {
  gli_valid : bool; gli_base : Z; gli_length : Z;
  gli_sv : bool; gli_de : bool; gli_vs : bool;
  gli_mem : bool; gli_ret : bool; gli_ready : bool
}.
(** Frame reader, and addresses of the words read but not yet consumed, oldest first (the
    DRAM reader is an in-order queue of [depth] words, as in VideoOutModel.v). *)
Record gl_st := { gl_dr : dr_st; gl_reads : list Z }.

(** dma.source.valid. *)
Definition gl_dv (s : gl_st) (i : gl_in) : bool := gli_ret i && match gl_reads s with [] => false | _ => true end.
(** core.py:233 with timing.source = genlock stream (183). *)
Definition gl_svalid (s : gl_st) (i : gl_in) : bool := gli_sv i && (negb (gli_de i) || gl_dv s i).
(** core.py:236-242. *)
Definition gl_dready (s : gl_st) (i : gl_in) : bool :=
  if negb (gli_valid i) then true else gl_svalid s i && gli_ready i && gli_de i.
(** The word displayed in a clock, identified by its address. *)
Definition gl_shown (s : gl_st) (i : gl_in) : option Z :=
  if gl_svalid s i && gli_ready i && gli_de i then Some (hd 0 (gl_reads s)) else None.

Definition gl_di (depth : nat) (s : gl_st) (i : gl_in) : dr_in :=
  {| dri_valid := gli_valid i; dri_base := gli_base i; dri_length := gli_length i;
     dri_ready := gli_mem i && (length (gl_reads s) <? depth)%nat; dri_vsync := gli_vs i |}.
(** [delay]: the delay_base register (core.py:59, 97). *)
Definition gl_step (aw delay : Z) (depth : nat) (s : gl_st) (i : gl_in) : gl_st :=
  let d := gl_di depth s i in
  {| gl_dr := dr_step true aw delay (gl_dr s) d;
     gl_reads := (if gl_dv s i && gl_dready s i then tl (gl_reads s) else gl_reads s)
                 ++ (match dr_taken aw (gl_dr s) d with Some a => [a] | None => [] end) |}.
Definition gl_run aw delay depth (i : nat -> gl_in) (n : nat) : gl_st :=
  at_ (gl_step aw delay depth) {| gl_dr := dr_init; gl_reads := [] |} i n.

(** The parameter queue (FifoModel.v) in this mode: timing.sink.ready, and with it
    initiator.source.ready (core.py:230), is never driven, so it is 0. *)
Definition gl_ini (i : ini_in) : ini_in :=
  {| ini_sys := ini_sys i; ini_cd := ini_cd i; ini_sw := ini_sw i; ini_rdy := false; ini_mp := ini_mp i; ini_mc := ini_mc i |}.
