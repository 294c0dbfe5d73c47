(** Model of the delay control of S7DataCapture, /repo/litevideo/input/datacapture.py:257-447: both delay lines behind
    one command register, with their read-back.  Clocks sys and pix1p25x; instants and edges are those of CdcModel.v.
    Each of the five command toggles may be sampled early at a common edge, independently of the others. *)
From Coq Require Import ZArith List Bool.
From Verif Require Import Hdl CdcModel TapModel.
Import ListNotations.
Open Scope Z_scope.

(** [s7_sys], [s7_pix]: edges.  [s7_re], [s7_r]: software writes the value [s7_r] to dly_ctl in the current sys clock.
    [s7_race]: bit k says whether the toggle of command k is seen new by a pix1p25x edge that coincides with the sys edge.
    [s7_mrt], [s7_mrd], [s7_srt], [s7_srd]: races of the two read-backs (TapModel.v). *)
Record s7_in := { s7_sys : bool; s7_pix : bool; s7_re : bool; s7_r : Z; s7_race : Z;
                  s7_mrt : bool; s7_mrd : Z; s7_srt : bool; s7_srd : Z }.
Record s7_st := {
  s7_rst : ps_st; s7_minc : ps_st; s7_mdec : ps_st; s7_sinc : ps_st; s7_sdec : ps_st;   (* 421-425 *)
  s7_mcnt : Z; s7_scnt : Z;                                                             (* CNTVALUEOUT: 293-306, 333-346 *)
  s7_mbs : bs_st; s7_sbs : bs_st                                                        (* 365-372 *)
}.
Definition s7_init : s7_st :=
  {| s7_rst := ps_init; s7_minc := ps_init; s7_mdec := ps_init; s7_sinc := ps_init; s7_sdec := ps_init;
     s7_mcnt := 0; s7_scnt := 0; s7_mbs := bs_init 128; s7_sbs := bs_init 128 |}.

(** 434-440: bit [k] of a write to dly_ctl. *)
Definition s7_cmd (k : Z) (i : s7_in) : bool := s7_re i && bit (s7_r i) k.
Definition s7_ps (k : Z) (i : s7_in) (s : ps_st) : ps_st := ps_step_r (s7_sys i) (s7_pix i) (s7_cmd k i) (bit (s7_race i) k) s.
(** 426-432 with [tap_step]: what a delay line does in a pix1p25x clock. *)
Definition s7_tap (rst inc dec : ps_st) (c : Z) : Z := tap_step (ps_o rst) (ps_o inc || ps_o dec) (ps_o inc) c.
Definition s7_step (s : s7_st) (i : s7_in) : s7_st :=
  {| s7_rst := s7_ps 0 i (s7_rst s);
     s7_minc := s7_ps 1 i (s7_minc s);
     s7_mdec := s7_ps 2 i (s7_mdec s);
     s7_sinc := s7_ps 3 i (s7_sinc s);
     s7_sdec := s7_ps 4 i (s7_sdec s);
     s7_mcnt := if s7_pix i then s7_tap (s7_rst s) (s7_minc s) (s7_mdec s) (s7_mcnt s) else s7_mcnt s;
     s7_scnt := if s7_pix i then s7_tap (s7_rst s) (s7_sinc s) (s7_sdec s) (s7_scnt s) else s7_scnt s;
     s7_mbs := bs_step 128 (s7_mbs s) {| bsi_a := s7_pix i; bsi_b := s7_sys i; bsi_i := s7_mcnt s; bsi_rt := s7_mrt i; bsi_rd := s7_mrd i |};
     s7_sbs := bs_step 128 (s7_sbs s) {| bsi_a := s7_pix i; bsi_b := s7_sys i; bsi_i := s7_scnt s; bsi_rt := s7_srt i; bsi_rd := s7_srd i |} |}.
Definition s7_run (x : nat -> s7_in) (n : nat) : s7_st := at_ s7_step s7_init x n.
(** 368-371: what software reads from cntvalueout_m and cntvalueout_s. *)
Definition s7_mread (s : s7_st) : Z := bs_o (s7_mbs s).
Definition s7_sread (s : s7_st) : Z := bs_o (s7_sbs s).
