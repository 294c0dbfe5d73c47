(** Model of the asynchronous FIFOs that carry words between two clock
    domains, of the FrameExtraction output (analysis.py:235-255) and of the
    Initiator (output/core.py:14-38).
    migen.genlib.fifo.AsyncFIFO is not in /repo: two Gray counters, one per
    domain, each copied to the other domain by two registers, and a memory of
    2^n words read through a registered address.  litex's stream.AsyncFIFO
    adds only the packing of the payload.
    Time is a sequence of instants as in CdcModel: at each, the write clock,
    the read clock, both or none has a rising edge.  When both edges coincide,
    every bit of a pointer sampled from the other domain may take its old or
    its new value, independently of the other bits. *)
From Coq Require Import ZArith List Bool.
From Verif Require Import Hdl AnalysisModel.
Import ListNotations.
Open Scope Z_scope.

(** GrayCounter: q_next_binary ^ q_next_binary[1:]. *)
Definition gray (x : Z) : Z := Z.lxor x (x / 2).

(** A register sampling a signal that changes from [a] to [b]: the bits set in
    [m] take the new value. *)
Definition sampled (m a b : Z) : Z := Z.lxor a (Z.land m (Z.lxor a b)).

Fixpoint set_nth {A : Type} (k : nat) (x : A) (l : list A) : list A :=
  match l with
  | [] => []
  | y :: r => match k with O => x :: r | S j => y :: set_nth j x r end
  end.

(** Inputs at an instant: edges of the two clocks, write enable and data, read
    enable, and the race masks for the two sampled pointers. *)
Record af_in (A : Type) := {
  ai_w : bool; ai_r : bool; ai_we : bool; ai_d : A; ai_re : bool; ai_mp : Z; ai_mc : Z
}.
Arguments ai_w {A}. Arguments ai_r {A}. Arguments ai_we {A}. Arguments ai_d {A}. Arguments ai_re {A}.
Arguments ai_mp {A}. Arguments ai_mc {A}.

(** Registers: produce (binary, Gray), consume (binary, Gray), produce in the
    read domain, consume in the write domain, memory, read address. *)
Record af_st (A : Type) := {
  af_pb : Z; af_pq : Z; af_cb : Z; af_cq : Z; af_p0 : Z; af_p1 : Z; af_c0 : Z; af_c1 : Z;
  af_mem : list A; af_ra : Z
}.
Arguments af_pb {A}. Arguments af_pq {A}. Arguments af_cb {A}. Arguments af_cq {A}. Arguments af_p0 {A}.
Arguments af_p1 {A}. Arguments af_c0 {A}. Arguments af_c1 {A}. Arguments af_mem {A}. Arguments af_ra {A}.

Section Fifo.
Variable A : Type.
(** Log of the depth; unused memory reads. *)
Variables (n : Z) (d0 : A).

(** The memory and its address register have no reset. *)
Definition af_init (mem : list A) (ra : Z) : af_st A :=
  {| af_pb := 0; af_pq := 0; af_cb := 0; af_cq := 0; af_p0 := 0; af_p1 := 0; af_c0 := 0; af_c1 := 0;
     af_mem := mem; af_ra := ra |}.

Definition af_writable (s : af_st A) : bool :=
  Bool.eqb (bit (af_pq s) n) (bit (af_c1 s) n) || Bool.eqb (bit (af_pq s) (n - 1)) (bit (af_c1 s) (n - 1)) ||
  negb (slice 0 (n - 1) (af_pq s) =? slice 0 (n - 1) (af_c1 s)).
Definition af_readable (s : af_st A) : bool := negb (af_cq s =? af_p1 s).
Definition af_dout (s : af_st A) : A := nth (Z.to_nat (af_ra s)) (af_mem s) d0.

Definition af_next (ce : bool) (b : Z) : Z := if ce then trunc (n + 1) (b + 1) else b.

Definition af_step (s : af_st A) (i : af_in A) : af_st A :=
  let wr := af_writable s && ai_we i in
  let rd := af_readable s && ai_re i in
  let pb := if ai_w i then af_next wr (af_pb s) else af_pb s in
  let cb := if ai_r i then af_next rd (af_cb s) else af_cb s in
  let pq := if ai_w i then gray pb else af_pq s in
  let cq := if ai_r i then gray cb else af_cq s in
  {| af_pb := pb; af_pq := pq; af_cb := cb; af_cq := cq;
     af_p0 := if ai_r i then sampled (ai_mp i) (af_pq s) pq else af_p0 s;
     af_p1 := if ai_r i then af_p0 s else af_p1 s;
     af_c0 := if ai_w i then sampled (ai_mc i) (af_cq s) cq else af_c0 s;
     af_c1 := if ai_w i then af_c0 s else af_c1 s;
     af_mem := if ai_w i && wr then set_nth (Z.to_nat (trunc n (af_pb s))) (ai_d i) (af_mem s) else af_mem s;
     af_ra := if ai_r i then trunc n cb else af_ra s |}.

Definition af_run (mem : list A) (ra : Z) (i : nat -> af_in A) (t : nat) : af_st A := at_ af_step (af_init mem ra) i t.
End Fifo.
Arguments af_init {A}. Arguments af_writable {A}. Arguments af_readable {A}. Arguments af_dout {A}.
Arguments af_step {A}. Arguments af_run {A}.

(** * FrameExtraction, analysis.py:197-209, 221-255: packer (pix clock) and FIFO to the sys clock.
    [n]: log of fifo_depth; [F]: pixels per word. *)
Record fe_in := { fei_pix : bool; fei_sys : bool; fei_pk : pk_in; fei_ready : bool; fei_mp : Z; fei_mc : Z }.
Record fe_st := { fe_pk : pk_st; fe_fifo : af_st (bool * list Z) }.

Section Capture.
Variables (n : Z) (F : nat).
Definition fe_word0 : bool * list Z := (false, []).
(** fifo.sink, 238-250: valid and payload. *)
Definition fe_fifo_in (s : fe_st) (i : fe_in) : af_in (bool * list Z) :=
  {| ai_w := fei_pix i; ai_r := fei_sys i; ai_we := pk_valid (fe_pk s); ai_d := (pk_sof (fe_pk s), pk_lanes (fe_pk s));
     ai_re := fei_ready i; ai_mp := fei_mp i; ai_mc := fei_mc i |}.
Definition fe_step (s : fe_st) (i : fe_in) : fe_st :=
  {| fe_pk := if fei_pix i then pk_step F (fe_pk s) (fei_pk i) else fe_pk s;
     fe_fifo := af_step n (fe_fifo s) (fe_fifo_in s i) |}.
(** 261: fifo.sink.valid & ~fifo.sink.ready. *)
Definition fe_drop (s : fe_st) : bool := pk_valid (fe_pk s) && negb (af_writable n (fe_fifo s)).
(** 252-253: the frame stream offered to the DMA. *)
Definition fe_frame (s : fe_st) : option (bool * list Z) :=
  if af_readable (fe_fifo s) then Some (af_dout fe_word0 (fe_fifo s)) else None.
Definition fe_init (mem : list (bool * list Z)) (ra : Z) : fe_st := {| fe_pk := pk_init F; fe_fifo := af_init mem ra |}.
Definition fe_run (mem : list (bool * list Z)) (ra : Z) (i : nat -> fe_in) (t : nat) : fe_st := at_ fe_step (fe_init mem ra) i t.
End Capture.

(** * Initiator, output/core.py:14-38.
    The parameter registers in the order of frame_parameter_layout + frame_dma_layout
    (output/common.py:11-25) with their widths.  A register write changes the whole
    register at once (atomic_write, core.py:35). *)
Definition ini_widths : list Z := [12; 12; 12; 12; 12; 12; 12; 12; 32; 32].
Inductive ini_wr := IwNone | IwEnable (b : bool) | IwField (k : nat) (v : Z).
(** [ini_sys]: sys edge, [ini_cd]: edge of the DRAM port's clock, [ini_sw]: register write in the sys clock,
    [ini_rdy]: ready from the timing generator. *)
Record ini_in := { ini_sys : bool; ini_cd : bool; ini_sw : ini_wr; ini_rdy : bool; ini_mp : Z; ini_mc : Z }.
Record ini_st := { ini_en : bool; ini_regs : list Z; ini_fifo : af_st (list Z) }.
Definition ini_write (w : ini_wr) (en : bool) (r : list Z) : bool * list Z :=
  match w with
  | IwNone => (en, r)
  | IwEnable b => (b, r)
  | IwField k v => (en, set_nth k (trunc (nth k ini_widths 0) v) r)
  end.
(** The FIFO is 4 deep (27). *)
Definition ini_step (s : ini_st) (i : ini_in) : ini_st :=
  let w := ini_write (ini_sw i) (ini_en s) (ini_regs s) in
  {| ini_en := if ini_sys i then fst w else ini_en s;
     ini_regs := if ini_sys i then snd w else ini_regs s;
     ini_fifo := af_step 2 (ini_fifo s)
       {| ai_w := ini_sys i; ai_r := ini_cd i; ai_we := ini_en s; ai_d := ini_regs s; ai_re := ini_rdy i;
          ai_mp := ini_mp i; ai_mc := ini_mc i |} |}.
(** Parameter set offered to the timing generator and the DMA reader. *)
Definition ini_out (s : ini_st) : option (list Z) :=
  if af_readable (ini_fifo s) then Some (af_dout [] (ini_fifo s)) else None.
Definition ini_init (mem : list (list Z)) (ra : Z) : ini_st :=
  {| ini_en := false; ini_regs := repeat 0 10; ini_fifo := af_init mem ra |}.
Definition ini_run (mem : list (list Z)) (ra : Z) (i : nat -> ini_in) (t : nat) : ini_st := at_ ini_step (ini_init mem ra) i t.
