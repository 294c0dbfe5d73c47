(** Model of the frame reader and of the video output core.
    /repo/litevideo/output/core.py:41-122 and 195-281. *)
From Coq Require Import ZArith List Bool.
From Verif Require Import Hdl TimingModel.
Import ListNotations.
Open Scope Z_scope.

(** * DMAReader, core.py:41-122 *)

Inductive dr_fsm := DR_IDLE | DR_READ | DR_WAIT_SOF.

(** core.py:53,58 (FSM state, offset) and 66-73 (vsync edge registers). *)
Record dr_st := { dr_state : dr_fsm; dr_offset : Z; dr_v : bool; dr_v_r : bool; dr_sof : bool }.
Definition dr_init : dr_st :=
  {| dr_state := DR_IDLE; dr_offset := 0; dr_v := false; dr_v_r := false; dr_sof := false |}.

(** core.py:55,61-62: byte address or length to a word count of [aw] bits,
    [shift] = log2(dram width / 8). *)
Definition dr_words (shift aw x : Z) : Z := trunc aw (x / 2 ^ shift).

(** Inputs of one clock: frame parameters (in words), ready of the DRAM reader,
    and vsync of the genlock stream. *)
Record dr_in := { dri_valid : bool; dri_base : Z; dri_length : Z; dri_ready : bool; dri_vsync : bool }.

(** core.py:85,104: an address is offered in state READ; core.py:120: its value. *)
Definition dr_addr_valid (s : dr_st) : bool := match dr_state s with DR_READ => true | _ => false end.
Definition dr_addr (aw : Z) (s : dr_st) (i : dr_in) : Z := trunc aw (dri_base i + dr_offset s).

(** core.py:86-91, 105-110: the last address of the frame is being taken. *)
Definition dr_done (s : dr_st) (i : dr_in) : bool :=
  dr_addr_valid s && dri_ready i && (dr_offset s =? dri_length i - 1).

(** core.py:65-117, one clock.  [genlock]: a genlock stream is given;
    [delay]: the delay_base register. *)
Definition dr_step (genlock : bool) (aw delay : Z) (s : dr_st) (i : dr_in) : dr_st :=
  {| dr_state :=
       match dr_state s with
       | DR_IDLE => if dri_valid i then DR_READ else DR_IDLE
       | DR_READ => if dr_done s i then (if genlock then DR_WAIT_SOF else DR_IDLE) else DR_READ
       | DR_WAIT_SOF => if dr_sof s then DR_IDLE else DR_WAIT_SOF
       end;
     dr_offset :=
       match dr_state s with
       | DR_IDLE => if genlock then trunc aw delay else 0
       | DR_READ => if dri_ready i then trunc aw (dr_offset s + 1) else dr_offset s
       | DR_WAIT_SOF => dr_offset s
       end;
     dr_v := genlock && dri_vsync i;
     dr_v_r := genlock && dr_v s;
     dr_sof := genlock && (dr_v s && negb (dr_v_r s)) |}.

Definition dr_run genlock aw delay (i : nat -> dr_in) (n : nat) : dr_st :=
  at_ (dr_step genlock aw delay) dr_init i n.

(** Address taken by the DRAM reader in a clock. *)
Definition dr_taken (aw : Z) (s : dr_st) (i : dr_in) : option Z :=
  if dr_addr_valid s && dri_ready i then Some (dr_addr aw s i) else None.

(** * VideoOutCore control path, core.py:224-256 (no genlock stream) *)

(** Inputs of one clock: the initiator, the DMA data stream, the consumer. *)
Record vo_in := { vi_valid : bool; vi_p : fparam; vi_dv : bool; vi_data : Z; vi_ready : bool }.

(** core.py:233: source.valid. *)
Definition vo_valid (s : tg_st) (i : vo_in) : bool := vi_valid i && (negb (tg_de (vi_valid i) s) || vi_dv i).
(** core.py:236-242: timing.source.ready and dma.source.ready ([raw]: mode == "raw"). *)
Definition vo_tready (s : tg_st) (i : vo_in) : bool :=
  if negb (vi_valid i) then true else vo_valid s i && vi_ready i.
Definition vo_dready (raw : bool) (s : tg_st) (i : vo_in) : bool :=
  if negb (vi_valid i) then true else vo_valid s i && vi_ready i && (tg_de (vi_valid i) s || raw).

Definition vo_step (s : tg_st) (i : vo_in) : tg_st := tg_step s (vi_valid i) (vo_tready s i) (vi_p i).

(** The output stream in one clock: transfer, de, data (core.py:251-255). *)
Definition vo_transfer (s : tg_st) (i : vo_in) : bool := vo_valid s i && vi_ready i.

(** A DMA data stream delivering the words [w 0, w 1, ...] in order: the word on
    offer is the one after those taken.  [vs_taken] counts the words taken. *)
Record vs_st := { vs_tg : tg_st; vs_taken : nat }.
Definition vs_init := {| vs_tg := tg_init; vs_taken := 0%nat |}.
Record vs_in := { si_valid : bool; si_p : fparam; si_dv : bool; si_ready : bool }.
Definition vs_vi (w : nat -> Z) (s : vs_st) (i : vs_in) : vo_in :=
  {| vi_valid := si_valid i; vi_p := si_p i; vi_dv := si_dv i; vi_data := w (vs_taken s); vi_ready := si_ready i |}.
Definition vs_step (raw : bool) (w : nat -> Z) (s : vs_st) (i : vs_in) : vs_st :=
  let v := vs_vi w s i in
  {| vs_tg := vo_step (vs_tg s) v;
     vs_taken := if vi_dv v && vo_dready raw (vs_tg s) v then S (vs_taken s) else vs_taken s |}.
Definition vs_run raw w (i : nat -> vs_in) (n : nat) : vs_st := at_ (vs_step raw w) vs_init i n.

(** * Underflow counter, core.py:258-281.  Inputs are in the dram clock domain,
    after the synchronisers of core.py:262-268. *)
Record uf_st := { uf_counter : Z; uf_status : Z }.
Definition uf_init := {| uf_counter := 0; uf_status := 0 |}.
Record uf_in := { ui_enable : bool; ui_update : bool; ui_valid : bool }.
Definition uf_step (s : uf_st) (i : uf_in) : uf_st :=
  {| uf_counter :=
       if ui_enable i then (if negb (ui_valid i) then trunc 32 (uf_counter s + 1) else uf_counter s) else 0;
     uf_status := if ui_update i then uf_counter s else uf_status s |}.
Definition uf_run (i : nat -> uf_in) (n : nat) : uf_st := at_ uf_step uf_init i n.

(** * Initiator + timing + frame reader + DRAM reader, composed
    (core.py:14-38, 195-256; rgb or ycbcr422 mode, no genlock stream).
    The parameter FIFO (core.py:28) is a list of at most four sets fed by the environment; the DRAM reader is an
    in-order queue of outstanding addresses of bounded [depth], whose data
    become available when the environment says so; a word is identified by the
    address it was read from. *)
Record vparam := { vp_t : fparam; vp_base : Z; vp_length : Z }.
Record vt_st := { vt_tg : tg_st; vt_dr : dr_st; vt_q : list vparam; vt_reads : list Z }.
Record vt_in := {
  ti_push : option vparam;   (* parameter set entering the FIFO *)
  ti_mem : bool;             (* memory willing to accept a command *)
  ti_ret : bool;             (* data of the oldest outstanding read are back *)
  ti_ready : bool;           (* consumer ready *)
  ti_junk : vparam           (* FIFO output while empty *)
}.
Definition vt_head (s : vt_st) (i : vt_in) : vparam := match vt_q s with p :: _ => p | [] => ti_junk i end.
Definition vt_valid (s : vt_st) : bool := match vt_q s with [] => false | _ => true end.
Definition vt_vi (s : vt_st) (i : vt_in) : vo_in :=
  {| vi_valid := vt_valid s; vi_p := vp_t (vt_head s i);
     vi_dv := ti_ret i && negb (match vt_reads s with [] => true | _ => false end);
     vi_data := hd 0 (vt_reads s); vi_ready := ti_ready i |}.
Definition vt_di (depth : nat) (s : vt_st) (i : vt_in) : dr_in :=
  {| dri_valid := vt_valid s; dri_base := vp_base (vt_head s i); dri_length := vp_length (vt_head s i);
     dri_ready := ti_mem i && (length (vt_reads s) <? depth)%nat; dri_vsync := false |}.
Definition vt_step (aw : Z) (depth : nat) (s : vt_st) (i : vt_in) : vt_st :=
  let v := vt_vi s i in
  let d := vt_di depth s i in
  let pop := vt_valid s && tg_sink_ready (vo_tready (vt_tg s) v) (vt_tg s) in
  let reads1 := if vi_dv v && vo_dready false (vt_tg s) v then tl (vt_reads s) else vt_reads s in
  {| vt_tg := vo_step (vt_tg s) v;
     vt_dr := dr_step false aw 0 (vt_dr s) d;
     vt_q := (if pop then tl (vt_q s) else vt_q s) ++ (match ti_push i with Some p => if (length (vt_q s) <? 4)%nat then [p] else [] | None => [] end);
     vt_reads := reads1 ++ (match dr_taken aw (vt_dr s) d with Some a => [a] | None => [] end) |}.
Definition vt_start (q : list vparam) : vt_st :=
  {| vt_tg := tg_init; vt_dr := dr_init; vt_q := q; vt_reads := [] |}.
Definition vt_run aw depth q (i : nat -> vt_in) (n : nat) : vt_st := at_ (vt_step aw depth) (vt_start q) i n.
