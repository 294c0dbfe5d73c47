(** Model of the control part of S6DataCapture, /repo/litevideo/input/datacapture.py:97-197: both delay lines behind
    one command register, the phase error accumulator and the phase register.  Clocks sys and pix2x; instants and edges
    are those of CdcModel.v. *)
From Coq Require Import ZArith List Bool.
From Verif Require Import Hdl SerialModel CdcModel StatusModel.
Import ListNotations.
Open Scope Z_scope.

(** [dl_sys], [dl_pix]: edges.  [dl_re], [dl_r]: software writes the value [dl_r] to dly_ctl in the current sys clock;
    [dl_pre]: it writes phase_reset.  [dl_mbusy], [dl_sbusy]: BUSY of the two IODELAY2; [dl_valid], [dl_incdec]: VALID and
    INCDEC of the ISERDES2; [dl_race]: bits of the accumulator seen new by a sys edge that coincides with a pix2x edge. *)
Record dl_in := { dl_sys : bool; dl_pix : bool; dl_re : bool; dl_r : Z; dl_pre : bool;
                  dl_mbusy : bool; dl_sbusy : bool; dl_valid : bool; dl_incdec : bool; dl_race : Z }.
Record dl_st := {
  dl_mcal : ps_st; dl_mrst : ps_st; dl_scal : ps_st; dl_srst : ps_st; dl_inc : ps_st; dl_dec : ps_st;   (* 142-147 *)
  dl_mpend : bool; dl_mfin : bool; dl_mdone : ps_st;                                                    (* 116-127 *)
  dl_spend : bool; dl_sfin : bool; dl_sdone : ps_st;                                                    (* 129-140 *)
  dl_msys : bool; dl_ssys : bool;                                                                       (* 157-176 *)
  dl_late : Z; dl_lrst : ps_st;                                                                         (* 98, 192 *)
  dl_pha : Z; dl_phb : Z                                                                                (* 191 *)
}.
Definition dl_init (w : Z) : dl_st :=
  {| dl_mcal := ps_init; dl_mrst := ps_init; dl_scal := ps_init; dl_srst := ps_init; dl_inc := ps_init; dl_dec := ps_init;
     dl_mpend := false; dl_mfin := false; dl_mdone := ps_init; dl_spend := false; dl_sfin := false; dl_sdone := ps_init;
     dl_msys := false; dl_ssys := false; dl_late := 2 ^ (w - 1); dl_lrst := ps_init; dl_pha := 0; dl_phb := 0 |}.

(** 178-184: bit [k] of a write to dly_ctl. *)
Definition dl_cmd (k : Z) (i : dl_in) : bool := dl_re i && bit (dl_r i) k.
(** 148-155: inputs of the delay lines in a pix2x clock. *)
Definition dl_ce (s : dl_st) : bool := ps_o (dl_inc s) || ps_o (dl_dec s).
(** 185-186: what software reads from dly_busy. *)
Definition dl_busy (s : dl_st) : Z := (if dl_msys s then 1 else 0) + 2 * (if dl_ssys s then 1 else 0).
(** 102-105, 191: Cat(too_late, too_early) for accumulator value [l]. *)
Definition dl_flags (w l : Z) : Z := (if too_late w l then 1 else 0) + 2 * (if too_early l then 1 else 0).

(** 117-127 and 130-140: pending and done for a line told [go], with BUSY [bz]. *)
Definition dl_pend_step (pend go bz : bool) : bool := if pend then bz else go.
Definition dl_fin_step (pend bz : bool) : bool := pend && negb bz.
(** 157-166 and 167-176: the busy bit in the sys domain. *)
Definition dl_sys_step (b wr done : bool) : bool := if wr then true else if done then false else b.

Definition dl_step (w : Z) (s : dl_st) (i : dl_in) : dl_st :=
  let a := dl_sys i in let b := dl_pix i in
  let late := if b then l6_step w (dl_late s)                                                           (* 106-113 *)
                {| l6_reset := ps_o (dl_lrst s); l6_mbusy := dl_mbusy i; l6_sbusy := dl_sbusy i;
                   l6_valid := dl_valid i; l6_incdec := dl_incdec i |} else dl_late s in
  {| dl_mcal := ps_step a b (dl_cmd 0 i) (dl_mcal s);
     dl_mrst := ps_step a b (dl_cmd 1 i) (dl_mrst s);
     dl_scal := ps_step a b (dl_cmd 2 i) (dl_scal s);
     dl_srst := ps_step a b (dl_cmd 3 i) (dl_srst s);
     dl_inc := ps_step a b (dl_cmd 4 i) (dl_inc s);
     dl_dec := ps_step a b (dl_cmd 5 i) (dl_dec s);
     dl_mpend := if b then dl_pend_step (dl_mpend s) (ps_o (dl_mcal s) || dl_ce s) (dl_mbusy i) else dl_mpend s;
     dl_mfin := if b then dl_fin_step (dl_mpend s) (dl_mbusy i) else dl_mfin s;
     dl_mdone := ps_step b a (dl_mfin s) (dl_mdone s);
     dl_spend := if b then dl_pend_step (dl_spend s) (ps_o (dl_scal s) || dl_ce s) (dl_sbusy i) else dl_spend s;
     dl_sfin := if b then dl_fin_step (dl_spend s) (dl_sbusy i) else dl_sfin s;
     dl_sdone := ps_step b a (dl_sfin s) (dl_sdone s);
     dl_msys := if a then dl_sys_step (dl_msys s) (dl_cmd 0 i || dl_cmd 4 i || dl_cmd 5 i) (ps_o (dl_mdone s)) else dl_msys s;
     dl_ssys := if a then dl_sys_step (dl_ssys s) (dl_cmd 2 i || dl_cmd 4 i || dl_cmd 5 i) (ps_o (dl_sdone s)) else dl_ssys s;
     dl_late := late;
     dl_lrst := ps_step a b (dl_pre i) (dl_lrst s);                                                     (* 192-196 *)
     (* 191: the flags are gates on the bits of the accumulator, each of which is old or new at a common edge *)
     dl_pha := if a then dl_flags w (bit_race (dl_race i) (dl_late s) late) else dl_pha s;
     dl_phb := if a then dl_pha s else dl_phb s |}.
Definition dl_run (w : Z) (i : nat -> dl_in) (n : nat) : dl_st := at_ (dl_step w) (dl_init w) i n.
(** What software reads from the phase register. *)
Definition dl_phase (s : dl_st) : Z := dl_phb s.

(** The same register of S7DataCapture, datacapture.py:407-410, 443: [v k] is the accumulator after [k] clocks of its domain. *)
Record fl_st := { fl_k : nat; fl_a : Z; fl_b : Z }.
Definition fl_init : fl_st := {| fl_k := 0; fl_a := 0; fl_b := 0 |}.
Definition fl_step (w : Z) (v : nat -> Z) (s : fl_st) (x : mr_in) : fl_st :=
  let k' := if mri_src x then S (fl_k s) else fl_k s in
  {| fl_k := k';
     fl_a := if mri_sys x then dl_flags w (bit_race (mri_race x) (v (fl_k s)) (v k')) else fl_a s;
     fl_b := if mri_sys x then fl_a s else fl_b s |}.
Definition fl_run (w : Z) (v : nat -> Z) (x : nat -> mr_in) (n : nat) : fl_st := at_ (fl_step w v) fl_init x n.
