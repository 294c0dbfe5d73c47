(** Specification of the TMDS link, independent of the model: the DVI 1.0
    encoding algorithm (figure 3-5), disparity and transition counts. *)
From Coq Require Import ZArith List Bool.
From Verif Require Import Hdl.
Import ListNotations.
Open Scope Z_scope.

(** A transmitted character: a pixel byte or a two-bit control value. *)
Inductive tmds_char := Pixel (d : Z) | Control (c : Z).

Definition char_ok (x : tmds_char) : Prop :=
  match x with Pixel d => 0 <= d < 256 | Control c => 0 <= c < 4 end.

(** DVI 1.0, table 3-5: control words, least significant bit first. *)
Definition dvi_control (c : Z) : list bool :=
  let t := true in let f := false in
  match c with
  | 0 => [f;f;t;f;t;f;t;f;t;t]
  | 1 => [t;t;f;t;f;t;f;t;f;f]
  | 2 => [f;f;t;f;t;f;t;f;t;f]
  | _ => [t;t;f;t;f;t;f;t;f;t]
  end.

Definition N1 (l : list bool) : Z := Z.of_nat (length (filter (fun b => b) l)).
Definition N0 (l : list bool) : Z := Z.of_nat (length (filter negb l)).

(** First stage: XOR or XNOR chain, chosen to minimise transitions. *)
Fixpoint dvi_chain (use_xnor : bool) (prev : bool) (l : list bool) : list bool :=
  match l with
  | [] => []
  | b :: r => let q := if use_xnor then Bool.eqb prev b else xorb prev b in
              q :: dvi_chain use_xnor q r
  end.

Definition dvi_xnor (d : list bool) : bool :=
  (4 <? N1 d) || ((N1 d =? 4) && negb (hd false d)).

Definition dvi_qm (d : list bool) : list bool :=
  match d with
  | [] => []
  | b :: r => b :: dvi_chain (dvi_xnor d) b r
  end.

(** Second stage: conditional inversion for DC balance.  [cnt] is the running
    disparity; the result is the ten-bit word (least significant bit first)
    and the new running disparity, with unbounded integers. *)
Definition dvi_pixel (d : Z) (cnt : Z) : list bool * Z :=
  let dl := to_bits 8 d in
  let q := dvi_qm dl in
  let q8 := negb (dvi_xnor dl) in
  let n1 := N1 q in let n0 := N0 q in
  if (cnt =? 0) || (n1 =? n0) then
    if q8 then (q ++ [true; false], cnt + n1 - n0)
    else (map negb q ++ [false; true], cnt + n0 - n1)
  else if ((0 <? cnt) && (n0 <? n1)) || ((cnt <? 0) && (n1 <? n0)) then
    (map negb q ++ [q8; true], cnt + 2 * b2z q8 + n0 - n1)
  else
    (q ++ [q8; false], cnt - 2 * b2z (negb q8) + n1 - n0).

Definition dvi_encode (x : tmds_char) (cnt : Z) : list bool * Z :=
  match x with
  | Pixel d => dvi_pixel d cnt
  | Control c => (dvi_control c, 0)
  end.

(** The algorithm over a stream of characters. *)
Fixpoint dvi_cnt (xs : nat -> tmds_char) (n : nat) : Z :=
  match n with
  | O => 0
  | S m => snd (dvi_encode (xs m) (dvi_cnt xs m))
  end.

Definition dvi_word (xs : nat -> tmds_char) (n : nat) : list bool :=
  fst (dvi_encode (xs n) (dvi_cnt xs n)).

(** Disparity of a word: ones minus zeros. *)
Definition disparity (w : list bool) : Z := N1 w - N0 w.

(** Number of transitions between neighbouring bits. *)
Fixpoint transitions (w : list bool) : Z :=
  match w with
  | a :: ((b :: _) as r) => (if Bool.eqb a b then 0 else 1) + transitions r
  | _ => 0
  end.

(** Sum of the disparities of the words [w 0 .. w (n-1)] emitted since the
    last control character. *)
Fixpoint running_disparity (xs : nat -> tmds_char) (w : nat -> list bool) (n : nat) : Z :=
  match n with
  | O => 0
  | S m => match xs m with
           | Control _ => 0
           | Pixel _ => running_disparity xs w m + disparity (w m)
           end
  end.

(** Words a conforming transmitter can send: control words, and the words
    the algorithm yields for some byte and some running disparity. *)
Definition legal_control (w : Z) : Prop :=
  exists c, 0 <= c < 4 /\ w = of_bits (dvi_control c).
Definition legal_pixel (w : Z) : Prop :=
  exists d cnt, 0 <= d < 256 /\ w = of_bits (fst (dvi_pixel d cnt)).
Definition legal_word (w : Z) : Prop := legal_control w \/ legal_pixel w.

(** Receiver side: decoding of a ten-bit word, least significant bit first
    (DVI 1.0 figure 3-6): undo the inversion, then the XOR/XNOR chain. *)
Fixpoint dvi_unchain (use_xor : bool) (prev : bool) (l : list bool) : list bool :=
  match l with
  | [] => []
  | q :: r => (if use_xor then xorb q prev else Bool.eqb q prev) :: dvi_unchain use_xor q r
  end.

Definition dvi_decode (w : list bool) : list bool :=
  let q := firstn 8 w in
  let q := if nth 9 w false then map negb q else q in
  match q with
  | [] => []
  | b :: r => b :: dvi_unchain (nth 8 w false) b r
  end.

(** Index of the last control word among [w 0 .. w (n-1)]; 0 if there is none. *)
Fixpoint last_control (w : nat -> Z) (n : nat) : Z :=
  match n with
  | O => 0
  | S m => match find (fun c => w m =? of_bits (dvi_control c)) [0; 1; 2; 3] with
           | Some c => c
           | None => last_control w m
           end
  end.
