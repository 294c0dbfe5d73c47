(** C97: the serial lines of either FPGA family carry the link that the theorems about
    whole pictures assume. *)
From Coq Require Import ZArith List Bool Lia Arith.
From Verif Require Import Hdl Trace HdmiModel HdmiProofs HdmiProps CharSyncModel CharSyncSpec CharSyncProofs ChanSyncModel ChanSyncProofs ChanSyncProps
  LinkModel LinkProofs LinkProps SerialModel SerialProps GearModel GearProps.
Import ListNotations.
Open Scope nat_scope.

(** The FPGA family at either end. *)
Inductive family := Spartan6 | Series7.

(** The bits that leave the transmitter's positive pin. *)
Definition sent (f : family) (inverted : bool) (w : nat -> Z) (t : nat) : bool :=
  match f with Spartan6 => pin_bit inverted w t | Series7 => pin7_bit inverted w t end.

Lemma sent_serial : forall f inv w t, sent f inv w t = xorb inv (serial w t).
Proof. intros [|] inv w t; [exact (pin_bit_word inv w t)|apply pin7_serial]. Qed.

(** The clocks of the receiver, common to its three channels.  Spartan 6: the pixel
    clock has its edges at the even or at the odd edges of the doubled clock.  Series 7:
    write and read clock of the gearbox in the ratio 5 to 4, started within
    three pixel clocks of each other. *)
Inductive rx_clocks := Clk6 (odd : bool) | Clk7 (m a b : nat).
Definition clocks_ok (c : rx_clocks) : Prop :=
  match c with Clk6 _ => True | Clk7 m a b => 1 <= m /\ a <= b + 15 * m /\ b <= a + 16 * m end.
(** How many bits the receiver's deserialiser and gearbox take. *)
Definition rx_bits (c : rx_clocks) : nat := match c with Clk6 false => 10 | Clk6 true => 5 | Clk7 _ _ _ => 40 end.

(** Word [n] of a channel whose deserialiser sees [line]. *)
Definition receives (c : rx_clocks) (inverted : bool) (line : nat -> bool) (raw : nat -> Z) : Prop :=
  match c with
  | Clk6 odd => let e := if odd then 1 else 0 in
      forall n, raw n = dg_d (dg_run inverted (groups_of line 0) (fun h => Bool.eqb (Nat.odd h) odd) (2 * n + e + 1))
  | Clk7 m a b => exists i, (forall t, gbi_w (i t) = clocked a (4 * m) t /\ gbi_r (i t) = clocked b (5 * m) t) /\ deserialised line i /\
      forall n, raw n = gb_o (cap7_run inverted i (S (b + 5 * m * n)))
  end.

(** Three pairs of wires.  A pad marked inverted is one whose pair is swapped on the
    board; pair [k] delays by [d k] bits. *)
Definition cable (f : family) (c : rx_clocks) (o : nat -> px) (d : nat -> nat) (raw : nat -> nat -> Z) : Prop :=
  clocks_ok c /\ forall k, k < 3 -> exists ti ri line,
    (forall t, d k <= t -> line t = xorb (xorb ti ri) (sent f ti (tx_word o k) (t - d k))) /\
    receives c ri line (fun n => raw n k).

(** * Spartan 6 *)
Lemma testbit_cat5 : forall a b j, (0 <= a < 32)%Z -> j < 10 ->
  Z.testbit (trunc 10 (a + 32 * trunc 5 b)) (Z.of_nat j) = if j <? 5 then Z.testbit a (Z.of_nat j) else Z.testbit b (Z.of_nat (j - 5)).
Proof.
  intros a b j A J. unfold trunc. rewrite Z.mod_pow2_bits_low by lia.
  change 32%Z with (2 ^ 5)%Z in *. destruct (Nat.ltb_spec j 5) as [L|L].
  - rewrite <- (Z.mod_pow2_bits_low _ 5 (Z.of_nat j)) by lia. rewrite Z.mul_comm, Z.mod_add by lia. rewrite Z.mod_small by exact A. reflexivity.
  - replace (Z.of_nat j) with (Z.of_nat (j - 5) + 5)%Z by lia. rewrite <- Z.div_pow2_bits by lia.
    rewrite Z.mul_comm, Z.div_add by lia. rewrite Z.div_small by exact A. rewrite Z.add_0_l, Z.mod_pow2_bits_low by lia. reflexivity.
Qed.
Lemma group5_bit : forall line n j, j < 5 -> Z.testbit (groups_of line 0 n) (Z.of_nat j) = line (5 * n + j).
Proof.
  intros line n j J. unfold groups_of. rewrite testbit_of_bits. rewrite (nth_map_seq _ (fun j => line (0 + 5 * n + j)) 5 j false J). reflexivity.
Qed.
Lemma dsr_bit : forall inv line pe n, (0 <= dg_dsr (dg_run inv (groups_of line 0) pe n) < 1024)%Z /\
  forall j, j < 10 -> 10 <= 5 * n + j -> Z.testbit (dg_dsr (dg_run inv (groups_of line 0) pe n)) (Z.of_nat j) = line (5 * n + j - 10).
Proof.
  intros inv line pe. induction n as [|n (R & IH)]; [split; [cbn; lia|intros; lia]|].
  change (dg_run inv (groups_of line 0) pe (S n)) with (dg_step inv (dg_run inv (groups_of line 0) pe n) (groups_of line 0 n, pe n)).
  cbn [dg_step dg_dsr fst]. set (s := dg_dsr (dg_run inv (groups_of line 0) pe n)) in *. clearbody s. split.
  - apply Z.mod_pos_bound. lia.
  - intros j J H. assert (SR : (0 <= slice 5 5 s < 32)%Z) by (unfold slice; apply Z.mod_pos_bound; lia).
    rewrite testbit_cat5 by assumption. destruct (Nat.ltb_spec j 5) as [L|L].
    + rewrite slice_bit by lia. replace (Z.of_nat j + 5)%Z with (Z.of_nat (5 + j)) by lia. rewrite IH by lia. f_equal. lia.
    + rewrite group5_bit by lia. f_equal. lia.
Qed.

Lemma s6_receives : forall odd inv line raw, receives (Clk6 odd) inv line raw ->
  (forall n, (0 <= raw n < 1024)%Z) /\ forall t, rx_bits (Clk6 odd) <= t -> serial raw t = xorb inv (line (t - rx_bits (Clk6 odd))).
Proof.
  intros odd inv line raw H. cbn [receives] in H. set (e := if odd then 1 else 0) in *. set (pe := fun h => Bool.eqb (Nat.odd h) odd) in *.
  assert (EB : rx_bits (Clk6 odd) + 5 * e = 10) by (unfold e; destruct odd; reflexivity).
  assert (PE : forall n, pe (2 * n + e) = true).
  { intros n. unfold pe, e. rewrite Nat.add_comm, Nat.odd_add_mul_2. destruct odd; reflexivity. }
  assert (RW : forall n, raw n = if inv then trunc 10 (Z.lnot (dg_dsr (dg_run inv (groups_of line 0) pe (2 * n + e)))) else dg_dsr (dg_run inv (groups_of line 0) pe (2 * n + e))).
  { intros n. rewrite H. rewrite Nat.add_1_r.
    change (dg_run inv (groups_of line 0) pe (S (2 * n + e))) with
      (dg_step inv (dg_run inv (groups_of line 0) pe (2 * n + e)) (groups_of line 0 (2 * n + e), pe (2 * n + e))).
    cbn [dg_step dg_d snd]. rewrite PE. reflexivity. }
  split.
  - intros n. rewrite RW. destruct inv; [apply Z.mod_pos_bound; lia|]. apply dsr_bit.
  - intros t T. unfold serial. rewrite RW. pose proof (Nat.div_mod t 10 ltac:(lia)) as D. pose proof (Nat.mod_upper_bound t 10 ltac:(lia)) as U.
    set (n := t / 10) in *. set (j := t mod 10) in *.
    pose proof (proj2 (dsr_bit inv line pe (2 * n + e)) j U ltac:(lia)) as Q.
    replace (5 * (2 * n + e) + j - 10) with (t - rx_bits (Clk6 odd)) in Q by lia. destruct inv.
    + unfold trunc. rewrite Z.mod_pow2_bits_low, Z.lnot_spec by lia. rewrite Q. reflexivity.
    + rewrite Q. destruct (line _); reflexivity.
Qed.

(** * Either family *)

(** Whatever the families, polarities, clock phases and line delays: the received
    words are the sent bit stream, late by the line and the receiver. *)
Theorem C97_lines : forall f c o d raw, cable f c o d raw -> forall k, k < 3 ->
  (forall n, (0 <= raw n k < 1024)%Z) /\
  forall t, rx_bits c + d k <= t -> serial (fun n => raw n k) t = serial (tx_word o k) (t - (rx_bits c + d k)).
Proof.
  intros f c o d raw (OK & H) k K. destruct (H k K) as (ti & ri & line & HL & HR). destruct c as [odd|m a b].
  - destruct (s6_receives odd ri line (fun n => raw n k) HR) as [A B]. split; [exact A|]. intros t T. rewrite B by lia. rewrite HL by lia.
    rewrite sent_serial. rewrite Nat.sub_add_distr. destruct ti, ri, (serial (tx_word o k) _); reflexivity.
  - destruct HR as (i & HC & HD & HW). destruct OK as (O1 & O2 & O3).
    destruct (C86_s7_link ti ri (tx_word o k) (d k) line) with (m := m) (a := a) (b := b) (i := i) as [A B]; try assumption.
    + intros t T. rewrite HL by exact T. rewrite sent_serial, pin7_serial. reflexivity.
    + split; [intros n; rewrite HW; apply A|]. intros t T. cbn [rx_bits] in *. rewrite <- B by lia. unfold serial. rewrite HW. reflexivity.
Qed.

(** The receiver's decoders and channel alignment in any state they can be in. *)
Definition rx_state_ok (s0 : rx_st) : Prop :=
  forall k, k < 3 -> (0 <= cs_cnt (rx_cs_of s0 k) <= 7)%Z /\ well_formed 8 (cy_buf (rx_cy s0) k).

(** So a cable whose pairs differ by at most seven pixel clocks is a link. *)
Theorem C97_link : forall f c o d dmin raw s0, cable f c o d raw -> (forall k, k < 3 -> dmin <= d k <= dmin + 70) -> rx_state_ok s0 ->
  link o (fun k => rx_bits c + d k) (rx_bits c + dmin) raw s0.
Proof.
  intros f c o d dmin raw s0 HC HD HS. split; [|split].
  - intros k K. specialize (HD k K). lia.
  - intros k K. exact (C97_lines f c o d raw HC k K).
  - exact HS.
Qed.

(** For every stream, families, polarities, clocks and delays there is such a cable. *)
Definition ex_line (f : family) (ti ri : bool) (w : nat -> Z) (d t : nat) : bool :=
  if t <? d then false else xorb (xorb ti ri) (sent f ti w (t - d)).
Definition ex_words_of (c : rx_clocks) (ri : bool) (line : nat -> bool) (n : nat) : Z :=
  match c with
  | Clk6 odd => dg_d (dg_run ri (groups_of line 0) (fun h => Bool.eqb (Nat.odd h) odd) (2 * n + (if odd then 1 else 0) + 1))
  | Clk7 m a b => gb_o (cap7_run ri (fun t => {| gbi_w := clocked a (4 * m) t; gbi_r := clocked b (5 * m) t;
      gbi_i := group8 line (occurrences (clocked a (4 * m)) 0 t) |}) (S (b + 5 * m * n)))
  end.
Example ex_cable : forall f c o d (ti ri : nat -> bool), clocks_ok c ->
  cable f c o d (fun n k => ex_words_of c (ri k) (ex_line f (ti k) (ri k) (tx_word o k) (d k)) n).
Proof.
  intros f c o d ti ri OK. split; [exact OK|]. intros k K. exists (ti k), (ri k), (ex_line f (ti k) (ri k) (tx_word o k) (d k)). split.
  - intros t T. unfold ex_line. destruct (Nat.ltb_spec t (d k)); [lia|reflexivity].
  - destruct c as [odd|m a b]; cbn [receives ex_words_of].
    + intros n. reflexivity.
    + eexists. split; [|split; [|reflexivity]].
      * intros t. split; reflexivity.
      * intros t _. reflexivity.
Qed.
Example ex_clocks_ok : clocks_ok (Clk7 1 9 2) /\ clocks_ok (Clk6 true) /\ rx_state_ok rx_init.
Proof. split; [cbn; lia|]. split; [exact I|]. intros k K. exact (proj1 (proj2 (proj2 ex_hyp)) k K). Qed.

Print Assumptions C97_lines.
Print Assumptions C97_link.
