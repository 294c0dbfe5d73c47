(** Model of the whole video output core in raw mode, from its registers to the words of
    the three serialisers.
    /repo/litevideo/output/core.py:14-62 and 195-256 with mode == "raw", output/__init__.py:44-50,
    no genlock stream.  FifoModel.v has the initiator, RawModel.v the rest; the inputs and the
    state are those of OutTopModel.v. *)
From Coq Require Import ZArith List Bool.
From Verif Require Import Hdl TimingModel VideoOutModel FifoModel OutTopModel RawModel.
Import ListNotations.
Open Scope Z_scope.

Section RawTop.
(** log2 of the bytes per memory word, width of a word address, depth of the DRAM reader. *)
Variables (shift aw : Z) (depth : nat).
(** As [ot_step], with the core of raw mode (output/core.py:239-242). *)
Definition rt_step (s : ot_st) (i : ot_in) : ot_st :=
  let v := rw_step aw depth (ot_vt shift aw s) (ot_ti shift aw s i) in
  {| ot_ini := ini_step (ot_ini s) (ot_ini_in shift aw s i);
     ot_tg := if ot_cd i then vt_tg v else ot_tg s;
     ot_dr := if ot_cd i then vt_dr v else ot_dr s;
     ot_reads := if ot_cd i then vt_reads v else ot_reads s |}.
Definition rt_run (mem : list (list Z)) (ra : Z) (i : nat -> ot_in) (t : nat) : ot_st := at_ rt_step (ot_init mem ra) i t.
(** The words of the three serialisers when the memory holds [M] (output/__init__.py:46-49,
    s7.py:154-156, s6.py:259-261). *)
Definition rt_words (M : Z -> Z) (junk : Z) (s : ot_st) (i : ot_in) : Z * Z * Z := rw_words M junk (ot_vt shift aw s) (ot_ti shift aw s i).
End RawTop.
