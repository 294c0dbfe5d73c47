(** Model of a stream stage built on litex's PipelinedActor.
    Used by /repo/litevideo/csc/rgb2ycbcr.py:129-142, ycbcr2rgb.py:107-120,
    ycbcr444to422.py:73-86, rgb2rgb16f.py, rgb16f2rgb.py and float_arithmetic.
    PipelinedActor itself is part of litex (not in /repo); it is modelled from its
    published source: a valid bit per stage, all stages clocked by
    pipe_ce = source.ready | ~valid[last]; sink.ready = pipe_ce; source.valid = valid[last]. *)
From Coq Require Import List Bool.
From Verif Require Import Hdl DelayModel.
Import ListNotations.

Section Pipe.
(** The datapath: state, next state on an enabled clock, outputs. *)
Variables (St In Out : Type) (dp : St -> In -> St) (out : St -> Out).

Record pa_st := { pa_dp : St; pa_v : list bool }.
Record pa_in := { pai_valid : bool; pai_data : In; pai_ready : bool }.

Definition pa_init (s0 : St) (latency : nat) : pa_st := {| pa_dp := s0; pa_v := repeat false latency |}.

Definition pa_source_valid (s : pa_st) (i : pa_in) : bool := dly_out (pa_v s) (pai_valid i).
Definition pa_ce (s : pa_st) (i : pa_in) : bool := pai_ready i || negb (pa_source_valid s i).
Definition pa_sink_ready (s : pa_st) (i : pa_in) : bool := pa_ce s i.

Definition pa_step (s : pa_st) (i : pa_in) : pa_st :=
  if pa_ce s i then {| pa_dp := dp (pa_dp s) (pai_data i); pa_v := dly_step (pa_v s) (pai_valid i) |} else s.

Definition pa_run (s0 : St) (latency : nat) (i : nat -> pa_in) (n : nat) : pa_st := at_ pa_step (pa_init s0 latency) i n.

(** Sample accepted at the input / the output in a clock. *)
Definition pa_in_event (s : pa_st) (i : pa_in) : option In :=
  if pai_valid i && pa_sink_ready s i then Some (pai_data i) else None.
Definition pa_out_event (s : pa_st) (i : pa_in) : option Out :=
  if pa_source_valid s i && pai_ready i then Some (out (pa_dp s)) else None.
End Pipe.
