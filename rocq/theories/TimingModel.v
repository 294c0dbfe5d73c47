(** Model of the video timing generator.
    /repo/litevideo/output/core.py:125-182 (no genlock stream). *)
From Coq Require Import ZArith List Bool.
From Verif Require Import Hdl.
Open Scope Z_scope.

(** output/common.py:5-20: frame_parameter_layout; each field has 12 bits. *)
Record fparam := {
  p_hres : Z; p_hs_start : Z; p_hs_end : Z; p_hscan : Z;
  p_vres : Z; p_vs_start : Z; p_vs_end : Z; p_vscan : Z
}.

(** core.py:136-141 and the registered outputs source.hsync/vsync/last. *)
Record tg_st := {
  t_hact : bool; t_vact : bool; t_h : Z; t_v : Z; t_hs : bool; t_vs : bool; t_last : bool
}.

Definition tg_init : tg_st :=
  {| t_hact := false; t_vact := false; t_h := 0; t_v := 0; t_hs := false; t_vs := false; t_last := false |}.

(** core.py:143-152: combinational outputs de, and sink.ready. *)
Definition tg_de (valid : bool) (s : tg_st) : bool := valid && (t_hact s && t_vact s).
Definition tg_sink_ready (ready : bool) (s : tg_st) : bool := ready && t_last s.

(** core.py:154-182: one clock with parameters [p] ([valid]) and source.ready
    [ready].  Later statements override earlier ones. *)
Definition tg_step (s : tg_st) (valid ready : bool) (p : fparam) : tg_st :=
  if negb valid then
    {| t_hact := false; t_vact := false; t_h := 0; t_v := 0;
       t_hs := t_hs s; t_vs := t_vs s; t_last := t_last s |}
  else if ready then
    let eol := t_h s =? p_hscan p in
    let eof := t_v s =? p_vscan p in
    {| t_hact := if t_h s =? p_hres p then false else if t_h s =? 0 then true else t_hact s;
       t_vact := if t_v s =? p_vres p then false else if t_v s =? 0 then true else t_vact s;
       t_h := if eol then 0 else trunc 12 (t_h s + 1);
       t_v := if eol then (if eof then 0 else trunc 12 (t_v s + 1)) else t_v s;
       t_hs := if t_h s =? p_hs_end p then false else if t_h s =? p_hs_start p then true else t_hs s;
       t_vs := if t_v s =? p_vs_end p then false else if t_v s =? p_vs_start p then true else t_vs s;
       t_last := eol && eof |}
  else s.

(** Inputs of one clock. *)
Record tg_in := { tgi_valid : bool; tgi_ready : bool; tgi_p : fparam }.

Definition tg_run (i : nat -> tg_in) (n : nat) : tg_st :=
  at_ (fun s x => tg_step s (tgi_valid x) (tgi_ready x) (tgi_p x)) tg_init i n.
