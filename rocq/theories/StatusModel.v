(** Model of status values on their way to software: registers of a source clock domain
    sampled by two registers of the system clock (MultiReg), and the underflow counter of
    the video output with its two control registers.
    /repo/litevideo/input/analysis.py:107, 130 (resolution),
    /repo/litevideo/input/datacapture.py:191, 443 (phase error),
    /repo/litevideo/input/charsync.py:55-56, /repo/litevideo/input/chansync.py:95 (sync state),
    /repo/litevideo/output/core.py:258-281 (underflow counter).
    Instants and edges are those of CdcModel.v; a bit that changes at the sampling edge
    takes the old or the new value. *)
From Coq Require Import ZArith List Bool.
From Verif Require Import Hdl CdcModel VideoOutModel.
Import ListNotations.
Open Scope Z_scope.

(** The bits set in [m] are taken from [b], the others from [a]. *)
Definition bit_race (m a b : Z) : Z := Z.lxor a (Z.land m (Z.lxor a b)).

(** Edges of the source clock and of the system clock, races. *)
Record mr_in := { mri_src : bool; mri_sys : bool; mri_race : Z }.
Record mr_st := { mr_k : nat; mr_m0 : Z; mr_m1 : Z }.
Definition mr_init : mr_st := {| mr_k := 0; mr_m0 := 0; mr_m1 := 0 |}.
(** [v k]: the source register after [k] source clocks. *)
Definition mr_step (v : nat -> Z) (s : mr_st) (x : mr_in) : mr_st :=
  let k' := if mri_src x then S (mr_k s) else mr_k s in
  {| mr_k := k';
     mr_m0 := if mri_sys x then bit_race (mri_race x) (v (mr_k s)) (v k') else mr_m0 s;
     mr_m1 := if mri_sys x then mr_m0 s else mr_m1 s |}.
Definition mr_run (v : nat -> Z) (x : nat -> mr_in) (n : nat) : mr_st := at_ (mr_step v) mr_init x n.

(** * Underflow counter, core.py:258-281.
    Edges of the system clock and of the pixel clock; software writes the enable register
    ([uci_we], value [uci_d]) or the update register ([uci_re]) in the current system clock;
    [uci_valid]: the stream has a pixel in the current pixel clock. *)
Record uc_in := { uci_sys : bool; uci_pix : bool; uci_we : bool; uci_d : bool; uci_re : bool; uci_valid : bool; uci_race : Z }.
Record uc_st := { uc_en : bool; uc_e0 : bool; uc_e1 : bool; uc_ps : ps_st; uc_uf : uf_st }.
Definition uc_init : uc_st := {| uc_en := false; uc_e0 := false; uc_e1 := false; uc_ps := ps_init; uc_uf := uf_init |}.
(** The two registers of line 262 are in the system clock domain (MultiReg's default). *)
Definition uc_step (s : uc_st) (x : uc_in) : uc_st :=
  {| uc_en := if uci_sys x && uci_we x then uci_d x else uc_en s;
     uc_e0 := if uci_sys x then uc_en s else uc_e0 s;
     uc_e1 := if uci_sys x then uc_e0 s else uc_e1 s;
     uc_ps := ps_step (uci_sys x) (uci_pix x) (uci_re x) (uc_ps s);
     uc_uf := if uci_pix x then uf_step (uc_uf s) {| ui_enable := uc_e1 s; ui_update := ps_o (uc_ps s); ui_valid := uci_valid x |} else uc_uf s |}.
Definition uc_run (x : nat -> uc_in) (n : nat) : uc_st := at_ uc_step uc_init x n.
(** What a system clock edge at instant [n] reads: the register itself, without synchroniser. *)
Definition uc_read (x : nat -> uc_in) (n : nat) : Z :=
  bit_race (uci_race (x n)) (uf_status (uc_uf (uc_run x n))) (uf_status (uc_uf (uc_run x (S n)))).
