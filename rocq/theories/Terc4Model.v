(** Model of the HDMI period tracker.
    /repo/litevideo/input/decoding.py:9-34 and 59-336. *)
From Coq Require Import ZArith List Bool.
From Verif Require Import Hdl TmdsModel ChanSyncModel.
Import ListNotations.
Open Scope Z_scope.

(** decoding.py:9. *)
Definition data_gb : Z := 307.                       (* 0b0100110011 *)
(** decoding.py:11-15. *)
Definition video_gb (ch : nat) : Z := nth ch [716; 307; 716] 0.
(* 0b1011001100, 0b0100110011, 0b1011001100 *)

(** decoding.py:17-34. *)
Definition terc4_tokens : list Z :=
  [668; 611; 740; 738; 369; 286; 398; 316; 716; 313; 412; 710; 654; 625; 355; 707].

(** decoding.py:59, terc4_layout: the registers of one channel decoder. *)
Record t4 := { t4_c : Z; t4_de : bool; t4_dgb : bool; t4_vgb : bool; t4_cv : bool; t4_d : Z }.

Definition t4_init : t4 :=
  {| t4_c := 0; t4_de := false; t4_dgb := false; t4_vgb := false; t4_cv := false; t4_d := 0 |}.

(** decoding.py:69-72: later matches win, no match keeps the value. *)
Definition t4_nibble (raw d : Z) : Z :=
  fold_left (fun a (it : Z * Z) => if raw =? snd it then fst it else a)
            (combine (zrange 0 16) terc4_tokens) d.

(** decoding.py:74-180.  [ch] is the channel number; channel 1 treats both
    guard bands as ambiguous. *)
Definition t4_step (ch : nat) (s : t4) (valid : bool) (raw : Z) : t4 :=
  let d := t4_nibble raw (t4_d s) in
  let ctl c := {| t4_c := c; t4_de := false; t4_dgb := false; t4_vgb := false; t4_cv := true; t4_d := d |} in
  if valid then
    if raw =? nth 0 control_tokens 0 then ctl 0
    else if raw =? nth 1 control_tokens 0 then ctl 1
    else if raw =? nth 2 control_tokens 0 then ctl 2
    else if raw =? nth 3 control_tokens 0 then ctl 3
    else if raw =? data_gb then
      {| t4_c := 0; t4_de := false; t4_dgb := true; t4_vgb := Nat.eqb ch 1; t4_cv := false; t4_d := d |}
    else if raw =? video_gb ch then
      {| t4_c := 0; t4_de := false; t4_dgb := Nat.eqb ch 1; t4_vgb := true; t4_cv := false; t4_d := d |}
    else
      {| t4_c := t4_c s; t4_de := true; t4_dgb := false; t4_vgb := false; t4_cv := false; t4_d := d |}
  else
    {| t4_c := 0; t4_de := false; t4_dgb := false; t4_vgb := false; t4_cv := false; t4_d := d |}.

(** decoding.py:221-336: FSM states. *)
Inductive t4_fsm := INIT | PREAM_T4 | GOING_T4 | TERC4 | LEAVE_T4 | PREAM_VID | GOING_VID | VIDEO.

(** Registers of DecodeTERC4: three channel decoders, the FSM, [de_r] (199),
    the two flops of the dvimode bit (196-198). *)
Record tx_st := {
  tx_ch0 : t4; tx_ch1 : t4; tx_ch2 : t4; tx_fsm : t4_fsm; tx_de_r : bool;
  tx_dvi0 : bool; tx_dvi1 : bool
}.

Definition tx_init : tx_st :=
  {| tx_ch0 := t4_init; tx_ch1 := t4_init; tx_ch2 := t4_init; tx_fsm := INIT; tx_de_r := false;
     tx_dvi0 := false; tx_dvi1 := false |}.

Record tx_in := { txi_valid : bool; txi_0 : chan; txi_1 : chan; txi_2 : chan; txi_dvi : bool }.

(** decoding.py:223-234. *)
Definition ctl_code (s : tx_st) : Z := t4_c (tx_ch1 s) + 4 * t4_c (tx_ch2 s).
Definition all_vgb (s : tx_st) : bool := t4_vgb (tx_ch0 s) && t4_vgb (tx_ch1 s) && t4_vgb (tx_ch2 s).
Definition any_cvalid (s : tx_st) : bool := t4_cv (tx_ch0 s) || t4_cv (tx_ch1 s) || t4_cv (tx_ch2 s).
Definition c2c1_dgb (s : tx_st) : bool := t4_dgb (tx_ch2 s) && t4_dgb (tx_ch1 s).

(** decoding.py:235-336, next state. *)
Definition tx_next (s : tx_st) : t4_fsm :=
  match tx_fsm s with
  | INIT => if all_vgb s then GOING_VID else if ctl_code s =? 5 then PREAM_T4
            else if ctl_code s =? 1 then PREAM_VID else INIT
  | PREAM_T4 => if all_vgb s then GOING_VID else if c2c1_dgb s then GOING_T4
                else if ctl_code s =? 5 then PREAM_T4 else INIT
  | GOING_T4 => if c2c1_dgb s then GOING_T4 else TERC4
  | TERC4 => if any_cvalid s then INIT else if all_vgb s then GOING_VID
             else if c2c1_dgb s then LEAVE_T4 else TERC4
  | LEAVE_T4 => if c2c1_dgb s then LEAVE_T4 else INIT
  | PREAM_VID => if ctl_code s =? 1 then PREAM_VID else if all_vgb s then GOING_VID else INIT
  | GOING_VID => if all_vgb s then GOING_VID else VIDEO
  | VIDEO => if any_cvalid s then INIT else VIDEO
  end.

(** Combinational outputs of the FSM: decoding.py:245-248, 260-263, 271-274,
    286-289, 297-300, 310-313, 321-324, 332-335. *)
Definition tx_enc_terc4 (s : tx_st) : bool :=
  match tx_fsm s with GOING_T4 | TERC4 | LEAVE_T4 => true | _ => false end.
Definition tx_enc_data (s : tx_st) : bool := match tx_fsm s with TERC4 => true | _ => false end.
Definition tx_enc_video (s : tx_st) : bool := match tx_fsm s with VIDEO => true | _ => false end.
Definition tx_de_hdmi (s : tx_st) : bool := match tx_fsm s with VIDEO => true | _ => false end.

(** decoding.py:203-209. *)
Definition tx_de_o (s : tx_st) : bool := if tx_dvi1 s then tx_de_r s else tx_de_hdmi s.

Definition tx_step (s : tx_st) (i : tx_in) : tx_st :=
  {| tx_ch0 := t4_step 0 (tx_ch0 s) (txi_valid i) (ch_raw (txi_0 i));
     tx_ch1 := t4_step 1 (tx_ch1 s) (txi_valid i) (ch_raw (txi_1 i));
     tx_ch2 := t4_step 2 (tx_ch2 s) (txi_valid i) (ch_raw (txi_2 i));
     tx_fsm := tx_next s;
     tx_de_r := ch_de (txi_0 i);                                    (* 200-202 *)
     tx_dvi0 := txi_dvi i; tx_dvi1 := tx_dvi0 s |}.                 (* 198 *)

Definition tx_run (s0 : tx_st) (i : nat -> tx_in) (n : nat) : tx_st := at_ tx_step s0 i n.
