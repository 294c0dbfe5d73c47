(** Model of the TMDS word encoder and decoder.
    /repo/litevideo/output/hdmi/encoder.py and
    /repo/litevideo/input/decoding.py:36-57. *)
From Coq Require Import ZArith List Bool.
From Verif Require Import Hdl.
Import ListNotations.
Open Scope Z_scope.

(** encoder.py:6: 0b1101010100, 0b0010101011, 0b0101010100, 0b1010101011. *)
Definition enc_tokens : list Z := [852; 171; 340; 683].

(** input/common.py:1-10, the receiver's own copy of the list. *)
Definition control_tokens : list Z := [852; 171; 340; 683].

(** ** Encoder, encoder.py:9-88 *)

(** Inputs [d] (8 bits), [c] (2 bits), [de]: encoder.py:11-13. *)
Record enc_in := { ei_d : Z; ei_c : Z; ei_de : bool }.

(** Registers: encoder.py:15 (out), 20-21 (d, n1d), 28 (q_m), 40-42 (q_m_r,
    n0q_m, n1q_m), 50 (cnt), 52-58 (three copies of c and de). *)
Record enc_st := {
  e_d : Z; e_n1d : Z;
  e_qm : Z;
  e_qmr : Z; e_n0 : Z; e_n1 : Z;
  e_cnt : Z;
  e_c1 : Z; e_c2 : Z; e_c3 : Z;
  e_de1 : bool; e_de2 : bool; e_de3 : bool;
  e_out : Z
}.

(** All registers reset to 0 (no explicit reset value in the file). *)
Definition enc_init : enc_st :=
  {| e_d := 0; e_n1d := 0; e_qm := 0; e_qmr := 0; e_n0 := 0; e_n1 := 0; e_cnt := 0;
     e_c1 := 0; e_c2 := 0; e_c3 := 0; e_de1 := false; e_de2 := false; e_de3 := false;
     e_out := 0 |}.

(** [reduce(add, [x[i] for i in range(8)])] into [Signal(max=9)] (4 bits):
    encoder.py:23 and 45. *)
Definition ones8 (x : Z) : Z := trunc 4 (count_true (to_bits 8 x)).

(** [reduce(add, [~x[i] for i in range(8)])] into 4 bits: encoder.py:44.
    In Migen [~b] is [-1-b]; the sum is truncated to 4 bits. *)
Definition zeros8 (x : Z) : Z :=
  trunc 4 (fold_right Z.add 0 (map (fun b => -1 - b2z b) (to_bits 8 x))).

(** encoder.py:30. *)
Definition enc_qm8n (d n1d : Z) : bool :=
  (4 <? n1d) || ((n1d =? 4) && negb (bit d 0)).

(** encoder.py:31-36: [curval = curval ^ d[i] ^ q_m8_n] for i = 1..7, from
    [curval = d[0]]. *)
Fixpoint enc_chain (x8 : bool) (prev : bool) (ds : list bool) : list bool :=
  match ds with
  | [] => []
  | b :: r => let cur := xorb (xorb prev b) x8 in cur :: enc_chain x8 cur r
  end.

(** encoder.py:28-37. *)
Definition enc_qm_next (d n1d : Z) : Z :=
  let x8 := enc_qm8n d n1d in
  of_bits (bit d 0 :: enc_chain x8 (bit d 0) (tl (to_bits 8 d)) ++ [negb x8]).

(** [Cat(low8, b8, b9)] for the slice assignments to [self.out]:
    encoder.py:63-66, 69, 74-76, 79-81. *)
Definition enc_word (b9 b8 : bool) (low : Z) : Z :=
  slice 0 8 low + 256 * b2z b8 + 512 * b2z b9.

(** encoder.py:60-88: next [out] and [cnt]. *)
Definition enc_final (de : bool) (c cnt qmr n0 n1 : Z) : Z * Z :=
  let q8 := bit qmr 8 in
  let q := slice 0 8 qmr in
  if de then
    if (cnt =? 0) || (n1 =? n0) then
      if q8 then (enc_word (negb q8) q8 q, strunc 6 (cnt + n1 - n0))
      else (enc_word (negb q8) q8 (-1 - q), strunc 6 (cnt + n0 - n1))
    else if (negb (bit cnt 5) && (n0 <? n1)) || (bit cnt 5 && (n1 <? n0)) then
      (enc_word true q8 (-1 - q), strunc 6 (cnt + 2 * b2z q8 + n0 - n1))
    else
      (enc_word false q8 q, strunc 6 (cnt - 2 * b2z (negb q8) + n1 - n0))
  else (nth (Z.to_nat c) enc_tokens 683, 0).

Definition enc_step (s : enc_st) (i : enc_in) : enc_st :=
  let f := enc_final (e_de3 s) (e_c3 s) (e_cnt s) (e_qmr s) (e_n0 s) (e_n1 s) in
  {| e_d := ei_d i; e_n1d := ones8 (ei_d i);                       (* 22-25 *)
     e_qm := enc_qm_next (e_d s) (e_n1d s);                        (* 28-37 *)
     e_qmr := e_qm s; e_n0 := zeros8 (e_qm s); e_n1 := ones8 (e_qm s); (* 43-47 *)
     e_cnt := snd f;
     e_c1 := ei_c i; e_c2 := e_c1 s; e_c3 := e_c2 s;               (* 52-58 *)
     e_de1 := ei_de i; e_de2 := e_de1 s; e_de3 := e_de2 s;
     e_out := fst f |}.

Definition enc_at (i : nat -> enc_in) (n : nat) : enc_st := at_ enc_step enc_init i n.

(** ** Decoding, decoding.py:36-57 *)

Record dec_in := { di_valid : bool; di_word : Z }.

(** [valid_o] and the output record: decoding.py:40-41, common.py channel_layout. *)
Record dec_st := { d_valid : bool; d_raw : Z; d_d : Z; d_c : Z; d_de : bool }.

Definition dec_init : dec_st :=
  {| d_valid := false; d_raw := 0; d_d := 0; d_c := 0; d_de := false |}.

(** decoding.py:45-50: later matches win; [c] keeps its value without match. *)
Definition dec_ctl (w : Z) (c : Z) : bool * Z :=
  fold_left (fun (a : bool * Z) (it : Z * Z) =>
               if w =? snd it then (false, fst it) else a)
            (combine [0; 1; 2; 3] control_tokens) (true, c).

(** decoding.py:52-56.  [x ^ y ^ ~z] assigned to one bit. *)
Definition dec_data (w : Z) : Z :=
  of_bits (xorb (bit w 0) (bit w 9) ::
           map (fun k => xorb (xorb (bit w k) (bit w (k - 1))) (negb (bit w 8)))
               [1; 2; 3; 4; 5; 6; 7]).

Definition dec_step (s : dec_st) (i : dec_in) : dec_st :=
  let r := dec_ctl (di_word i) (d_c s) in
  {| d_valid := di_valid i; d_raw := di_word i; d_d := dec_data (di_word i);
     d_c := snd r; d_de := fst r |}.

Definition dec_at (i : nat -> dec_in) (n : nat) : dec_st := at_ dec_step dec_init i n.
