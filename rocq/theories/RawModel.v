(** Model of the video output in raw mode: the core with its frame reader and the
    three words given to the serialisers.
    /repo/litevideo/output/core.py:195-256, output/__init__.py:44-50,
    output/hdmi/s7.py:151-157 and s6.py:256-262, no genlock stream. *)
From Coq Require Import ZArith List Bool.
From Verif Require Import Hdl TimingModel VideoOutModel YccPathModel.
Import ListNotations.
Open Scope Z_scope.

(** One clock: as [vt_step] of VideoOutModel.v, but a word is taken from the reader in
    blanking too (output/core.py:239-242 with mode == "raw"). *)
Definition rw_step (aw : Z) (depth : nat) (s : vt_st) (i : vt_in) : vt_st :=
  let v := vt_vi s i in
  let d := vt_di depth s i in
  let pop := vt_valid s && tg_sink_ready (vo_tready (vt_tg s) v) (vt_tg s) in
  let reads1 := if vi_dv v && vo_dready true (vt_tg s) v then tl (vt_reads s) else vt_reads s in
  {| vt_tg := vo_step (vt_tg s) v;
     vt_dr := dr_step false aw 0 (vt_dr s) d;
     vt_q := (if pop then tl (vt_q s) else vt_q s) ++ (match ti_push i with Some p => if (length (vt_q s) <? 4)%nat then [p] else [] | None => [] end);
     vt_reads := reads1 ++ (match dr_taken aw (vt_dr s) d with Some a => [a] | None => [] end) |}.
Definition rw_run aw depth q (i : nat -> vt_in) (n : nat) : vt_st := at_ (rw_step aw depth) (vt_start q) i n.

(** The reader has a word in this clock. *)
Definition rw_dv (s : vt_st) (i : vt_in) : bool := vi_dv (vt_vi s i).
(** The words of the three serialisers (output/__init__.py:46-49, s7.py:154-156, s6.py:259-261);
    the data are [junk] while the reader has none. *)
Definition rw_words (M : Z -> Z) (junk : Z) (s : vt_st) (i : vt_in) : Z * Z * Z :=
  vo_raw (if rw_dv s i then M (vi_data (vt_vi s i)) else junk).
