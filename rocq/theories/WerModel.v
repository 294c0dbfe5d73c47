(** Model of the word error rate counter.  /repo/litevideo/input/wer.py:12-66.
    The published value is the register [wer_counter_r] (56); its transfer to
    the system clock domain and the CSR (68-75) are in CdcModel.v. *)
From Coq Require Import ZArith List Bool.
From Verif Require Import Hdl TmdsModel.
Import ListNotations.
Open Scope Z_scope.

(** Registers: wer.py:28 (data_r), 35 (transition_count), 41 (is_control), 47
    (is_error), 51-52 (period_counter, period_done), 55-57 (wer_counter,
    wer_counter_r, wer_counter_r_updated). *)
Record wer_st := {
  w_data : Z; w_tc : Z; w_ctl : bool; w_err : bool;
  w_pc : Z; w_done : bool; w_cnt : Z; w_pub : Z; w_upd : bool
}.

Definition wer_init : wer_st :=
  {| w_data := 0; w_tc := 0; w_ctl := false; w_err := false;
     w_pc := 0; w_done := false; w_cnt := 0; w_pub := 0; w_upd := false |}.

(** wer.py:33-36: sum of [data_r[i] ^ data_r[i+1]], i = 0..7, into 4 bits. *)
Definition wer_transitions (d : Z) : Z :=
  trunc 4 (count_true (map (fun i => xorb (bit d i) (bit d (i + 1))) [0; 1; 2; 3; 4; 5; 6; 7])).

(** One clock; [pb] = period_bits, [x] = data (10 bits). *)
Definition wer_step (pb : Z) (s : wer_st) (x : Z) : wer_st :=
  {| w_data := slice 0 9 x;                                              (* 29 *)
     w_tc := wer_transitions (w_data s);                                 (* 36 *)
     w_ctl := existsb (fun t => w_data s =? t) control_tokens;           (* 42 *)
     w_err := (4 <? w_tc s) && negb (w_ctl s);                           (* 48 *)
     w_pc := trunc pb (w_pc s + 1);                                      (* 53 *)
     w_done := bit (w_pc s + 1) pb;                                      (* 53 *)
     w_upd := w_done s;                                                  (* 59 *)
     w_pub := if w_done s then w_cnt s else w_pub s;                     (* 60-61 *)
     w_cnt := if w_done s then 0                                         (* 62 *)
              else if w_err s then trunc pb (w_cnt s + 1) else w_cnt s   (* 63-64 *)
  |}.

Definition wer_at (pb : Z) (x : nat -> Z) (n : nat) : wer_st := at_ (wer_step pb) wer_init x n.
