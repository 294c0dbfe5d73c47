(** Model of the test pattern generators.  /repo/litevideo/output/pattern.py. *)
From Coq Require Import ZArith List Bool.
From Verif Require Import Hdl CscModel.
Import ListNotations.
Open Scope Z_scope.

(** Inputs of one clock: sink.valid, sink.hres (12 bits, output/common.py:5,33), source.ready. *)
Record pt_in := { pti_valid : bool; pti_hres : Z; pti_ready : bool }.

Definition white := {| c_r := 255; c_g := 255; c_b := 255 |}.
Definition black := {| c_r := 0; c_g := 0; c_b := 0 |}.

(** ** ColorBarsPattern, pattern.py:8-53 *)
Record cb_st := { cb_pix : Z; cb_bar : Z; cb_valid : bool; cb_rgb : rgb }.
Definition cb_init := {| cb_pix := 0; cb_bar := 0; cb_valid := false; cb_rgb := black |}.
(** pattern.py:35-45. *)
Definition bar_colour (b : Z) : rgb :=
  match b with
  | 0 => {| c_r := 255; c_g := 255; c_b := 255 |}
  | 1 => {| c_r := 255; c_g := 255; c_b := 0 |}
  | 2 => {| c_r := 0; c_g := 255; c_b := 255 |}
  | 3 => {| c_r := 0; c_g := 255; c_b := 0 |}
  | 4 => {| c_r := 255; c_g := 0; c_b := 255 |}
  | 5 => {| c_r := 255; c_g := 0; c_b := 0 |}
  | 6 => {| c_r := 0; c_g := 0; c_b := 255 |}
  | _ => {| c_r := 0; c_g := 0; c_b := 0 |}
  end.
(** pattern.py:18-32, 46-53.  hres[3:] - 1 is -1 for hres < 8 (Migen widens), which no pix equals. *)
Definition cb_step (s : cb_st) (i : pt_in) : cb_st :=
  let adv := pti_valid i && pti_ready i in
  let last := cb_pix s =? slice 3 9 (pti_hres i) - 1 in
  {| cb_pix := if adv then (if last then 0 else trunc 12 (cb_pix s + 1)) else cb_pix s;
     cb_bar := if adv && last then trunc 3 (cb_bar s + 1) else cb_bar s;
     cb_valid := cb_valid s || pti_valid i;
     cb_rgb := bar_colour (cb_bar s) |}.
Definition cb_run (i : nat -> pt_in) (n : nat) : cb_st := at_ cb_step cb_init i n.

(** ** VerticalLinesPattern, pattern.py:56-82 *)
Record vl_st := { vl_par : bool; vl_valid : bool; vl_rgb : rgb }.
Definition vl_init := {| vl_par := false; vl_valid := false; vl_rgb := black |}.
Definition vl_step (s : vl_st) (i : pt_in) : vl_st :=
  {| vl_par := if pti_valid i && pti_ready i then negb (vl_par s) else vl_par s;
     vl_valid := vl_valid s || pti_valid i;
     vl_rgb := if pti_valid i then (if vl_par s then white else black) else vl_rgb s |}.
Definition vl_run (i : nat -> pt_in) (n : nat) : vl_st := at_ vl_step vl_init i n.

(** ** DotsPattern, pattern.py:85-120 *)
Record dt_st := { dt_h : Z; dt_par : bool; dt_valid : bool; dt_rgb : rgb }.
Definition dt_init := {| dt_h := 0; dt_par := false; dt_valid := false; dt_rgb := black |}.
Definition dt_step (s : dt_st) (i : pt_in) : dt_st :=
  let adv := pti_valid i && pti_ready i in
  let last := dt_h s =? pti_hres i - 1 in
  {| dt_h := if adv then (if last then 0 else trunc 12 (dt_h s + 1)) else dt_h s;
     dt_par := if adv && negb last then negb (dt_par s) else dt_par s;
     dt_valid := dt_valid s || pti_valid i;
     dt_rgb := if dt_par s then white else black |}.
Definition dt_run (i : nat -> pt_in) (n : nat) : dt_st := at_ dt_step dt_init i n.

(** Pixel accepted from a pattern source in a clock. *)
Definition pt_out (valid : bool) (data : rgb) (i : pt_in) : option rgb :=
  if valid && pti_ready i then Some data else None.
