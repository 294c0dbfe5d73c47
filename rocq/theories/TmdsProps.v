(** Final theorems about the TMDS encoder and decoder: C01 - C05. *)
From Coq Require Import ZArith List Bool Lia.
From Verif Require Import Hdl TmdsModel TmdsSpec TmdsProofs.
Import ListNotations.
Open Scope Z_scope.

(** The ideal link: the decoder receives the encoder's output register. *)
Definition link (v : nat -> bool) (i : nat -> enc_in) (k : nat) : dec_in :=
  {| di_valid := v k; di_word := e_out (enc_at i k) |}.

Theorem C01_tmds_loopback :
  forall i : nat -> enc_in, (forall n, 0 <= ei_d (i n) < 256 /\ 0 <= ei_c (i n) < 4) ->
  forall (v : nat -> bool) (n : nat),
  let o := dec_at (link v i) (n + 5) in
  d_de o = ei_de (i n) /\
  (ei_de (i n) = true -> d_d o = ei_d (i n)) /\
  (ei_de (i n) = false -> d_c o = ei_c (i n)).
Proof. exact loopback. Qed.
Print Assumptions C01_tmds_loopback.

(** A stream that mixes pixels and control characters meets the hypothesis. *)
Definition ex_stream (n : nat) : enc_in :=
  {| ei_d := Z.of_nat n * 37 mod 256; ei_c := Z.of_nat n mod 4; ei_de := Nat.ltb 3 (n mod 16) |}.

Example ex_stream_ok : forall n, 0 <= ei_d (ex_stream n) < 256 /\ 0 <= ei_c (ex_stream n) < 4.
Proof. intros n; cbn; split; apply Z.mod_pos_bound; lia. Qed.

Example ex_loopback :
  map (fun n => d_d (dec_at (link (fun _ => true) ex_stream) (n + 5))) [4; 5; 6; 7]%nat
  = [148; 185; 222; 3].
Proof. vm_compute. reflexivity. Qed.

(** The emitted words as bit lists: word [n] is the one for input [n]. *)
Definition emitted (i : nat -> enc_in) (n : nat) : list bool := to_bits 10 (e_out (enc_at i (n + 4))).

Definition chars (i : nat -> enc_in) (n : nat) : tmds_char :=
  if ei_de (i n) then Pixel (ei_d (i n)) else Control (ei_c (i n)).

Theorem C02_dc_balance :
  forall i : nat -> enc_in, (forall n, 0 <= ei_d (i n) < 256 /\ 0 <= ei_c (i n) < 4) ->
  forall n : nat,
  -8 <= running_disparity (chars i) (emitted i) n <= 8 /\
  e_cnt (enc_at i (n + 3)) = running_disparity (chars i) (emitted i) n.
Proof.
  intros i Hi n.
  rewrite (running_ext (chars i) (emitted i) (dvi_word (chars i)) (enc_out_bits i Hi)).
  change (chars i) with (fun n => to_char (i n)).
  rewrite (running_is_cnt i Hi). split.
  - apply disps_bound, dvi_cnt_disps, Hi.
  - apply enc_cnt_sim, Hi.
Qed.
Print Assumptions C02_dc_balance.

Example ex_balance :
  map (running_disparity (chars ex_stream) (emitted ex_stream)) [5; 6; 7; 8; 16; 17]%nat
  = [-2; -2; 0; -6; -2; 0].
Proof. vm_compute. reflexivity. Qed.

Theorem C03_transition_minimised :
  forall i : nat -> enc_in, (forall n, 0 <= ei_d (i n) < 256 /\ 0 <= ei_c (i n) < 4) ->
  forall n : nat,
  let w := e_out (enc_at i (n + 4)) in
  (ei_de (i n) = true ->
     transitions (to_bits 10 w) <= 5 /\ transitions (to_bits 9 w) <= 4 /\
     forall c, 0 <= c < 4 -> w <> of_bits (dvi_control c)) /\
  (ei_de (i n) = false ->
     w = of_bits (dvi_control (ei_c (i n))) /\ transitions (to_bits 10 w) >= 7).
Proof.
  intros i Hi n w. unfold w. destruct (enc_out_legal i Hi n) as [Hp Hc]. split; intros E.
  - destruct (pixel_word_facts _ (Hp E)) as (_ & H1 & H2 & H3).
    repeat split; try assumption. intros c Hr EQ. apply H3. exists c; split; assumption.
  - rewrite (enc_out_sim i Hi n). unfold dvi_word, to_char. rewrite E. cbn [dvi_encode fst].
    destruct (control_ok (ei_c (i n)) (proj2 (Hi n))) as (_ & H1 & H2 & _).
    split; [reflexivity|]. rewrite H1. exact H2.
Qed.
Print Assumptions C03_transition_minimised.

Theorem C04_encoder_is_dvi :
  forall i : nat -> enc_in, (forall n, 0 <= ei_d (i n) < 256 /\ 0 <= ei_c (i n) < 4) ->
  forall n : nat, emitted i n = dvi_word (chars i) n.
Proof. intros i Hi n. exact (enc_out_bits i Hi n). Qed.
Print Assumptions C04_encoder_is_dvi.

Theorem C05_decoding_exact :
  forall i : nat -> dec_in, (forall n, 0 <= di_word (i n) < 1024) ->
  forall n : nat,
  let o := dec_at i (S n) in
  d_valid o = di_valid (i n) /\
  d_raw o = di_word (i n) /\
  (d_de o = false <-> legal_control (di_word (i n))) /\
  d_c o = last_control (fun k => di_word (i k)) (S n) /\
  d_d o = of_bits (dvi_decode (to_bits 10 (di_word (i n)))).
Proof.
  intros i Hi n o. destruct (decoding_exact i n (Hi n)) as (H1 & H2 & H3 & H4).
  repeat split; try assumption; try apply H3. apply decoding_last_control.
Qed.
Print Assumptions C05_decoding_exact.

Example ex_decoding_ok : forall n : nat,
  0 <= di_word {| di_valid := true; di_word := Z.of_nat n * 171 mod 1024 |} < 1024.
Proof. intros; cbn [di_word]; apply Z.mod_pos_bound; lia. Qed.
