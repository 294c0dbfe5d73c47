(** C131: a receiver built with hdmi=True, with its DVI bit clear, behind an HDMI source. *)
From Coq Require Import ZArith List Bool Lia Arith.
From Verif Require Import Hdl Trace TmdsModel TmdsSpec TmdsProofs CharSyncModel CharSyncSpec CharSyncProofs CharSyncProps
  ChanSyncModel ChanSyncProofs ChanSyncProps AnalysisModel AnalysisProps DelayModel Terc4Model Terc4Spec Terc4Proofs
  HdmiModel HdmiProofs HdmiRxModel HdmiRxProps Terc4Props HdmiProps FrameProps LinkModel LinkProps HdmiSrcSpec HdmiSrcProofs.
Import ListNotations.
Open Scope nat_scope.

(** ** Vocabulary *)

(** The three cables: channel [k] delays its bits by [L k] bit times, all within seven words of each other. *)
Definition wired (W : nat -> nat -> Z) (L : nat -> nat) (raw : nat -> nat -> Z) : Prop :=
  (exists Lmin, forall k, k < 3 -> Lmin <= L k <= Lmin + 70) /\ forall k, k < 3 -> bit_delayed (W k) (L k) (fun t => raw t k).

(** What the receiver needs once to lock: 30 clocks of control characters from [a] on, up to [b1]; a period of at least
    24 other clocks, up to [b2]; 24 clocks of control characters. *)
Definition lock_sequence (Q : nat -> slot) (a b1 b2 : nat) : Prop :=
  1 <= a /\ a + 30 <= b1 /\ b1 + 24 <= b2 /\ (forall n, a <= n < b1 -> is_ctl (Q n) = true) /\
  (forall n, b1 <= n < b2 -> is_ctl (Q n) = false) /\ (forall n, b2 <= n < b2 + 24 -> is_ctl (Q n) = true).

(** The control characters of channel 0 carry [hs] and [vs] (true: active) with polarities [ph] and [pv] (true: active low). *)
Definition sync_coded (Q : nat -> slot) (hs vs : nat -> bool) (ph pv : bool) : Prop :=
  forall n c0 c1 c2, Q n = Ctl c0 c1 c2 -> bit c0 0 = xorb (hs n) ph /\ bit c0 1 = xorb (vs n) pv.
(** Both are inactive in the first two clocks after a line. *)
Definition quiet_after_line (Q : nat -> slot) (hs vs : nat -> bool) : Prop :=
  forall n, is_pix (Q n) = true -> is_pix (Q (n + 1)) = false ->
  hs (n + 1) = false /\ vs (n + 1) = false /\ hs (n + 2) = false /\ vs (n + 2) = false.

(** The outputs [o] show the source [E] clocks later: data enable is high exactly for the pixels, beside the colours of
    what follows (compared with the source every line lacks its first pixel and has one of the control character after it at its end). *)
Definition delivers (Q : nat -> slot) (o : nat -> sp_st) (E n0 : nat) : Prop :=
  forall n, n0 <= n -> sp_valid (o (n + E)) = true /\ sp_de (o (n + E)) = is_pix (Q n) /\
  (is_pix (Q n) = true -> (sp_r (o (n + E)), sp_g (o (n + E)), sp_b (o (n + E))) = colours (Q (n + 1))).
(** The sync outputs are those of the last control character, up to and with the following clock. *)
Definition delivers_sync (Q : nat -> slot) (hs vs : nat -> bool) (o : nat -> sp_st) (E n0 : nat) : Prop :=
  forall n, n0 <= n -> sp_hsync (o (n + E)) = hs (last_ctl Q (n + 1)) /\ sp_vsync (o (n + E)) = vs (last_ctl Q (n + 1)).

Definition hdmi_mode (_ : nat) : bool := false.

(** A line: [h] pixels from clock [p] on. *)
Definition line_at (Q : nat -> slot) (p h : nat) : Prop :=
  1 <= p /\ 1 <= h /\ is_pix (Q (p - 1)) = false /\ (forall j, j < h -> is_pix (Q (p + j)) = true) /\ is_pix (Q (p + h)) = false.
Definition line_ends (Q : nat -> slot) (n : nat) : bool := is_pix (Q (n - 1)) && negb (is_pix (Q n)).

Definition rgb (c : Z * Z * Z) : Z := let '(r, g, b) := c in rgb_pixel r g b.

(** ** Proofs *)

Lemma colours_word : forall Q W, hdmi_source Q W -> forall n, is_pix (Q n) = true \/ is_ctl (Q n) = true ->
  (dec_data (W 2 n), dec_data (W 1 n), dec_data (W 0 n)) = colours (Q n).
Proof.
  intros Q W HQ n T. pose proof (src_words Q W HQ n 0 ltac:(lia)) as S0. pose proof (src_words Q W HQ n 1 ltac:(lia)) as S1.
  pose proof (src_words Q W HQ n 2 ltac:(lia)) as S2. destruct (Q n); cbn [is_pix is_ctl sends nth colours] in *; try (destruct T; discriminate).
  - destruct S0 as [R0 ->], S1 as [R1 ->], S2 as [R2 ->]. rewrite !dec_data_control by assumption. reflexivity.
  - destruct S0 as (R0 & c0' & ->), S1 as (R1 & c1' & ->), S2 as (R2 & c2' & ->). rewrite !dec_data_pixel by assumption. reflexivity.
Qed.
Lemma after_pix : forall Q W, hdmi_source Q W -> forall n, is_pix (Q n) = true -> is_pix (Q (n + 1)) = true \/ is_ctl (Q (n + 1)) = true.
Proof. intros Q W HQ n P. pose proof (src_order Q W HQ n) as F. destruct (Q n), (Q (n + 1)); cbn in *; try discriminate; tauto. Qed.
Lemma last_ctl_two : forall Q n, is_ctl (Q (n + 1)) = true -> last_ctl Q (n + 2) = n + 1 \/ last_ctl Q (n + 2) = n + 2.
Proof.
  intros Q n E. replace (n + 2) with (S (n + 1)) by lia. cbn [last_ctl]. destruct (is_ctl (Q (S (n + 1)))); [right; reflexivity|left].
  replace (n + 1) with (S n) in * by lia. cbn [last_ctl]. rewrite E. reflexivity.
Qed.

(** ** The outputs *)
Theorem C131_hdmi_source : forall Q W, hdmi_source Q W -> forall L raw, wired W L raw ->
  forall s0, rx_ok (rh_rx s0) -> one_deep s0 -> forall a b1 b2, lock_sequence Q a b1 b2 ->
  let o := rh_out s0 raw hdmi_mode in
  exists E, (forall k, k < 3 -> L k / 10 + 6 < E <= L k / 10 + 14) /\ delivers Q o E (b2 + 19) /\
  forall hs vs ph pv, sync_coded Q hs vs ph pv -> quiet_after_line Q hs vs ->
  forall l, b2 + 20 <= l -> line_ends Q l = true -> delivers_sync Q hs vs o E l.
Proof.
  intros Q W HQ L raw [[Lmin HL] Hraw] s0 Hs0 H0 a b1 b2 (Ha & H1 & H2 & B1 & A & B2) o.
  destruct (src_shown Q W HQ L Lmin HL raw Hraw s0 Hs0 a b1 b2 Ha H1 H2 B1 A B2) as (D & HD & Sh). cbv zeta in Sh.
  exists (D + 3). split; [intros k K; specialize (HD k K); lia|].
  set (i := fun n => {| spi_valid := true; spi_de := is_pix (Q n);
     spi_c := (bit (d_c (rx_dec_of (rx_run (rh_rx s0) raw (n + 1 + L 0 / 10 + 3)) 0)) 0,
               bit (d_c (rx_dec_of (rx_run (rh_rx s0) raw (n + 1 + L 0 / 10 + 3)) 0)) 1);
     spi_d := (dec_data (W 0 (n + 1)), dec_data (W 1 (n + 1)), dec_data (W 2 (n + 1))) |}).
  assert (ST : forall n, b2 + 19 <= n -> o (n + (D + 3)) = sp_step (o (n + (D + 2))) (i n)).
  { intros n N. unfold o, rh_out. replace (n + (D + 3)) with (S (S (n + 1 + D))) by lia.
    rewrite (rh_sp_step s0 raw hdmi_mode H0 (n + 1 + D)). replace (n + (D + 2)) with (S (n + 1 + D)) by lia. f_equal.
    destruct (Sh (n + 1) ltac:(lia)) as [V O]. destruct (Sh (n + 2) ltac:(lia)) as [V2 _].
    replace (S (n + 1 + D)) with (n + 2 + D) by lia. unfold i. rewrite V2. rewrite !O by lia. cbn [ch_c ch_d dec_chan].
    f_equal.
    - replace (n + 2 + D) with (n + D + 2) by lia.
      exact (trk_de Q W HQ L Lmin raw Hraw s0 Hs0 a b1 b2 Ha H1 H2 B1 B2 D Sh n N).
    - f_equal; [f_equal|]; apply (src_dec Q W HQ L raw Hraw s0 Hs0 a b1 b2 Ha H1 H2 B1); lia. }
  split.
  - intros n N. rewrite (ST n N). unfold sp_step, i. cbn [spi_valid spi_de spi_c spi_d sp_valid sp_de sp_r sp_g sp_b].
    repeat split. intros P. apply (colours_word Q W HQ (n + 1)). apply (after_pix Q W HQ n P).
  - intros hs vs ph pv HC HI l Ll LE.
    assert (C : forall n, b2 <= n + 1 -> spi_c (i n) = (xorb (hs (last_ctl Q (n + 1))) ph, xorb (vs (last_ctl Q (n + 1))) pv)).
    { intros n N. destruct (src_c0 Q W HQ L Lmin raw Hraw s0 Hs0 a b1 b2 Ha H1 H2 B1 A B2 (n + 1) N) as (c1 & c2 & E).
      destruct (HC _ _ _ _ E) as [E0 E1]. unfold i. cbn [spi_c]. rewrite E0, E1. reflexivity. }
    unfold line_ends in LE. apply andb_true_iff in LE as [LE1 LE2]. apply negb_true_iff in LE2.
    assert (R : forall j, o (l - 1 + j + (D + 2)) = at_ sp_step (o (l - 1 + (D + 2))) (fun j => i (l - 1 + j)) j).
    { induction j as [|j IH]; [rewrite Nat.add_0_r; reflexivity|]. cbn [at_]. rewrite <- IH.
      replace (l - 1 + S j + (D + 2)) with (l - 1 + j + (D + 3)) by lia. apply ST. lia. }
    intros n N.
    pose proof (C18_sync_polarity (o (l - 1 + (D + 2))) (fun j => i (l - 1 + j))
      (fun j => hs (last_ctl Q (l - 1 + j + 1))) (fun j => vs (last_ctl Q (l - 1 + j + 1))) ph pv) as X. cbv zeta beta in X.
    specialize (X ltac:(intros t; apply C; lia)).
    assert (HI' : forall t, spi_de (i (l - 1 + t)) = true -> spi_de (i (l - 1 + S t)) = false ->
      hs (last_ctl Q (l - 1 + S t + 1)) = false /\ vs (last_ctl Q (l - 1 + S t + 1)) = false).
    { intros t D1 D2. unfold i in D1, D2. cbn [spi_de] in D1, D2. replace (l - 1 + S t) with (l - 1 + t + 1) in D2 by lia.
      destruct (HI _ D1 D2) as (A1 & A2 & A3 & A4). destruct (after_pix Q W HQ _ D1) as [Z|Z]; [congruence|].
      replace (l - 1 + S t + 1) with (l - 1 + t + 2) by lia. destruct (last_ctl_two Q _ Z) as [-> | ->]; auto. }
    specialize (X HI' 0). rewrite Nat.add_0_r in X. replace (l - 1 + 1) with l in X by lia. unfold i at 1 2 in X. cbn [spi_de] in X.
    specialize (X LE1 LE2 (n - (l - 1)) ltac:(lia)). rewrite <- R in X.
    replace (l - 1 + S (n - (l - 1)) + (D + 2)) with (n + (D + 3)) in X by lia. replace (l - 1 + (n - (l - 1)) + 1) with (n + 1) in X by lia.
    destruct X as (X1 & X2 & _). auto.
Qed.
Print Assumptions C131_hdmi_source.

(** ** Resolution registers *)

Section Rd.
Variable st : nat -> rd_st.
Variable i : nat -> rd_in.
Hypothesis Hst : forall t, st (S t) = rd_step 11 (st t) (i t).

Lemma rd_line : forall t h, rdi_de (i t) = false -> (forall j, j < h -> rdi_de (i (S t + j)) = true /\ rdi_valid (i (S t + j)) = true) ->
  rd_hc (st (S t + h)) = trunc 11 (Z.of_nat h).
Proof.
  intros t h T. induction h as [|h IH]; intros H.
  - rewrite Nat.add_0_r, Hst. unfold rd_step. cbn [rd_hc]. rewrite T, andb_false_r. reflexivity.
  - rewrite Nat.add_succ_r, Hst. unfold rd_step. cbn [rd_hc]. destruct (H h ltac:(lia)) as [-> ->]. cbn [andb].
    rewrite IH by (intros; apply H; lia). rewrite trunc_succ. f_equal. lia.
Qed.
Lemma rd_h_line : forall t h, 1 <= h -> rdi_de (i t) = false -> (forall j, j < h -> rdi_de (i (S t + j)) = true) -> rdi_de (i (S t + h)) = false ->
  forall n, S t + h < n -> (forall j, t <= j < n -> rdi_valid (i j) = true) ->
  (forall j, S t + h < j < n -> rdi_de (i (j - 1)) = true -> rdi_de (i j) = true) ->
  rd_h (st n) = (Z.of_nat h mod 2048)%Z.
Proof.
  intros t h H1 D0 D1 D2 n N. induction N as [|n N IH]; intros V F.
  - rewrite Hst. unfold rd_step. cbn [rd_h]. rewrite V by lia. rewrite D2. destruct h as [|h]; [lia|].
    replace (rd_de_r (st (S t + S h))) with true.
    2:{ rewrite Nat.add_succ_r, Hst. unfold rd_step. cbn [rd_de_r]. symmetry. apply D1. lia. }
    cbn [negb andb]. rewrite rd_line; [reflexivity|exact D0|]. intros j J. split; [apply D1; lia|apply V; lia].
  - rewrite Hst. unfold rd_step. cbn [rd_h]. rewrite V by lia. rewrite IH by (intros; (apply V || apply F); try lia; assumption).
    replace (rd_de_r (st n)) with (rdi_de (i (n - 1))).
    2:{ destruct n as [|n]; [lia|]. rewrite Hst. cbn [rd_step rd_de_r]. f_equal. f_equal. lia. }
    specialize (F n ltac:(lia)). destruct (rdi_de (i (n - 1))), (rdi_de (i n)); try reflexivity. discriminate (F eq_refl).
Qed.

Definition rvs (t : nat) : bool := negb (rdi_vsync (i (t - 1))) && rdi_vsync (i t).
Definition rfall (t : nat) : bool := rdi_de (i (t - 1)) && negb (rdi_de (i t)).
Lemma rd_edges : forall t, 1 <= t -> rdi_vsync (i t) && negb (rd_vs_r (st t)) = rvs t /\ negb (rdi_de (i t)) && rd_de_r (st t) = rfall t.
Proof.
  intros t T. destruct t as [|t]; [lia|]. rewrite Hst. unfold rd_step, rvs, rfall. cbn [rd_vs_r rd_de_r]. replace (S t - 1) with t by lia.
  split; apply andb_comm.
Qed.
Lemma rd_lines : forall t m, 1 <= t -> rvs t = true -> (forall j, t <= j <= t + m -> rdi_valid (i j) = true) ->
  (forall j, t < j <= t + m -> rvs j = false) -> rd_vc (st (S t + m)) = trunc 11 (Z.of_nat (occurrences rfall (S t) m)).
Proof.
  intros t m T R V NR. induction m as [|m IH].
  - rewrite Nat.add_0_r, Hst. unfold rd_step. cbn [rd_vc]. destruct (rd_edges t T) as [-> _]. rewrite R, V by lia. reflexivity.
  - rewrite Nat.add_succ_r, Hst. unfold rd_step. cbn [rd_vc]. destruct (rd_edges (S t + m) ltac:(lia)) as [-> ->].
    rewrite NR by lia. rewrite andb_false_r, IH by (intros; (apply V || apply NR); lia). cbn [occurrences].
    destruct (rfall (S t + m)); [rewrite trunc_succ|]; f_equal; lia.
Qed.
Lemma rd_v_frame : forall t1 t2 n, 1 <= t1 -> t1 < t2 -> t2 < n -> rvs t1 = true -> rvs t2 = true -> (forall j, t1 < j < t2 -> rvs j = false) ->
  (forall j, t2 < j < n -> rvs j = false) -> (forall j, t1 <= j < n -> rdi_valid (i j) = true) ->
  rd_v (st n) = (Z.of_nat (occurrences rfall (t1 + 1) (t2 - t1 - 1)) mod 2048)%Z.
Proof.
  intros t1 t2 n T1 T2 N R1 R2 NR. induction N as [|n N IH]; intros NR2 V.
  - rewrite Hst. unfold rd_step. cbn [rd_v]. destruct (rd_edges t2 ltac:(lia)) as [-> _]. rewrite R2, V by lia.
    pose proof (rd_lines t1 (t2 - t1 - 1) T1 R1 ltac:(intros; apply V; lia) ltac:(intros; apply NR; lia)) as X.
    replace (S t1 + (t2 - t1 - 1)) with t2 in X by lia. rewrite X, Nat.add_1_r. reflexivity.
  - rewrite Hst. unfold rd_step. cbn [rd_v]. destruct (rd_edges n ltac:(lia)) as [-> _]. rewrite NR2, V by lia.
    apply IH; intros; (apply NR2 || apply V); lia.
Qed.
End Rd.

Lemma rh_rd_step : forall s0 raw dvi t, rx_rd (rh_rx (rh_run s0 raw dvi (S t))) =
  rd_step 11 (rx_rd (rh_rx (rh_run s0 raw dvi t))) (rx_rd_in (rh_rx (rh_run s0 raw dvi t))).
Proof. reflexivity. Qed.

Definition vs_rises (vs : nat -> bool) (n : nat) : bool := negb (vs (n - 1)) && vs n.

(** From a line's end until the next one ends, the horizontal register reads its number of pixels.  After the second of
    two rises of the received vsync the vertical one reads the number of lines ended between them. *)
Theorem C131_sizes : forall Q s0 raw dvi E n0, 1 <= E -> delivers Q (rh_out s0 raw dvi) E n0 ->
  let reg n := rx_rd (rh_rx (rh_run s0 raw dvi n)) in
  (forall p h, n0 < p -> line_at Q p h ->
   forall n, p + h < n -> (forall j, p + h < j < n -> line_ends Q j = false) -> rd_h (reg (n + E)) = (Z.of_nat h mod 2048)%Z) /\
  (forall hs vs, delivers_sync Q hs vs (rh_out s0 raw dvi) E n0 -> let v n := vs (last_ctl Q (n + 1)) in
   forall n1 n2 n, n0 < n1 -> n1 < n2 < n -> vs_rises v n1 = true -> vs_rises v n2 = true ->
   (forall j, n1 < j < n2 \/ n2 < j < n -> vs_rises v j = false) ->
   rd_v (reg (n + E)) = (Z.of_nat (occurrences (line_ends Q) (n1 + 1) (n2 - n1 - 1)) mod 2048)%Z).
Proof.
  intros Q s0 raw dvi E n0 HE DL reg.
  set (i := fun t => rx_rd_in (rh_rx (rh_run s0 raw dvi t))).
  assert (Hst : forall t, reg (S t) = rd_step 11 (reg t) (i t)) by (intros t; apply rh_rd_step).
  assert (HV : forall t, n0 + E <= t -> rdi_valid (i t) = true).
  { intros t T. destruct (DL (t - E) ltac:(lia)) as [V _]. replace (t - E + E) with t in V by lia. exact V. }
  assert (HD : forall n, n0 <= n -> rdi_de (i (n + E)) = is_pix (Q n)) by (intros n N; apply (DL n N)).
  split.
  - intros p h P (P1 & H1 & Z0 & Z1 & Z2) n N F.
    apply (rd_h_line reg i Hst (p - 1 + E) h H1).
    + rewrite HD by lia. exact Z0.
    + intros j J. replace (S (p - 1 + E) + j) with (p + j + E) by lia. rewrite HD by lia. apply Z1, J.
    + replace (S (p - 1 + E) + h) with (p + h + E) by lia. rewrite HD by lia. exact Z2.
    + lia.
    + intros j J. apply HV. lia.
    + intros j J X. specialize (F (j - E) ltac:(lia)). unfold line_ends in F.
      replace (j - 1) with (j - E - 1 + E) in X by lia. replace j with (j - E + E) by lia. rewrite HD in X |- * by lia.
      rewrite X in F. apply negb_false_iff in F. exact F.
  - intros hs vs DS v n1 n2 n N1 [N12 N2] R1 R2 NR.
    assert (RV : forall m, n0 < m -> rvs i (m + E) = vs_rises v m).
    { intros m M. unfold rvs, vs_rises, v. replace (m + E - 1) with (m - 1 + E) by lia.
      change (rdi_vsync (i (m + E))) with (sp_vsync (rh_out s0 raw dvi (m + E))). change (rdi_vsync (i (m - 1 + E))) with (sp_vsync (rh_out s0 raw dvi (m - 1 + E))).
      rewrite (proj2 (DS m ltac:(lia))), (proj2 (DS (m - 1) ltac:(lia))). reflexivity. }
    rewrite (rd_v_frame reg i Hst (n1 + E) (n2 + E) (n + E)); try lia.
    + replace (n2 + E - (n1 + E) - 1) with (n2 - n1 - 1) by lia. do 2 f_equal.
      replace (n1 + E + 1) with (n1 + 1 + E) by lia.
      assert (SH : forall m, occurrences (rfall i) (n1 + 1 + E) m = occurrences (line_ends Q) (n1 + 1) m).
      { induction m as [|m IH]; [reflexivity|]. cbn [occurrences]. rewrite IH. f_equal.
        unfold rfall, line_ends. replace (n1 + 1 + E + m - 1) with (n1 + 1 + m - 1 + E) by lia. replace (n1 + 1 + E + m) with (n1 + 1 + m + E) by lia.
        rewrite !HD by lia. reflexivity. }
      apply SH.
    + rewrite RV by lia. exact R1.
    + rewrite RV by lia. exact R2.
    + intros j J. replace j with (j - E + E) by lia. rewrite RV by lia. apply NR. lia.
    + intros j J. replace j with (j - E + E) by lia. rewrite RV by lia. apply NR. lia.
    + intros j J. apply HV. lia.
Qed.
Print Assumptions C131_sizes.

(** ** Capture *)

(** The picture of a frame as stored: every pixel of the source is replaced by what follows it. *)
Definition stored_slot (Q : nat -> slot) (n : nat) : option Z := if is_pix (Q n) then Some (rgb (colours (Q (n + 1)))) else None.

Theorem C131_capture : forall Q s0 raw dvi E n0, 1 <= E -> delivers Q (rh_out s0 raw dvi) E n0 ->
  forall hs vs, delivers_sync Q hs vs (rh_out s0 raw dvi) E n0 -> let v n := vs (last_ctl Q (n + 1)) in
  let i t := rx_pk_in (rh_rx (rh_run s0 raw dvi t)) in
  forall k, 1 <= k -> forall n1 n2, n0 < n1 < n2 -> vs_rises v n1 = true -> (forall j, n1 < j < n2 -> vs_rises v j = false) ->
  exists rest, length rest < 2 ^ k /\
    collect (stored_slot Q) (n1 + 1) (n2 - n1 - 1)
    = concat (map (fun w => rev (snd w)) (collect (word_out (2 ^ k) i) (n1 + E + 2) (n2 - n1 - 1))) ++ rest /\
    (forall w, In w (collect (word_out (2 ^ k) i) (n1 + E + 2) (n2 - n1 - 1)) -> length (snd w) = 2 ^ k).
Proof.
  intros Q s0 raw dvi E n0 HE DL hs vs DS v i k K n1 n2 N R NR.
  assert (RV : forall m, n0 < m -> rises (fun t => pki_vsync (i t)) (m + E) = vs_rises v m).
  { intros m M. unfold rises, vs_rises, v. replace (m + E) with (S (m - 1 + E)) by lia. rewrite andb_comm.
    change (pki_vsync (i (m - 1 + E))) with (sp_vsync (rh_out s0 raw dvi (m - 1 + E))). replace (S (m - 1 + E)) with (m + E) by lia.
    change (pki_vsync (i (m + E))) with (sp_vsync (rh_out s0 raw dvi (m + E))).
    rewrite (proj2 (DS m ltac:(lia))), (proj2 (DS (m - 1) ltac:(lia))). reflexivity. }
  destruct (C21_words_are_pixels_partial k K i (n1 + E) (n2 + E)) as (rest & A & B & C).
  - split; [lia|]. split; [rewrite RV by lia; exact R|]. intros t T. replace t with (t - E + E) by lia. rewrite RV by lia. apply NR. lia.
  - exists rest. split; [exact A|]. replace (n2 + E - (n1 + E) - 1) with (n2 - n1 - 1) in B, C by lia. split; [|exact C].
    rewrite <- B. replace (n1 + E + 1) with (n1 + 1 + E) by lia. rewrite (collect_shift _ (pixel_in i) E (n1 + 1)). apply collect_ext. intros t T.
    destruct (DL t ltac:(lia)) as (V & D & P). unfold stored_slot, pixel_in, i, rx_pk_in. cbn [pki_we pki_px].
    unfold rh_out in V, D, P. rewrite V, D. cbn [andb]. destruct (is_pix (Q t)); [|reflexivity]. rewrite <- (P eq_refl). reflexivity.
Qed.
Print Assumptions C131_capture.

(** Of every line the first pixel is missing; one made of the control character after the line comes last. *)
Theorem C131_line : forall Q W, hdmi_source Q W -> forall p h, line_at Q p h ->
  exists c0 c1 c2, Q (p + h) = Ctl c0 c1 c2 /\
  collect (stored_slot Q) p h = tl (map (fun j => rgb (colours (Q j))) (seq p h)) ++ [rgb (ctl_byte c2, ctl_byte c1, ctl_byte c0)].
Proof.
  intros Q W HQ p h (P & H & Z0 & Z1 & Z2). pose proof (Z1 (h - 1) ltac:(lia)) as Y. pose proof (src_order Q W HQ (p + (h - 1))) as F.
  replace (p + (h - 1) + 1) with (p + h) in F by lia.
  assert (X : exists c0 c1 c2, Q (p + h) = Ctl c0 c1 c2).
  { destruct (Q (p + (h - 1))); try discriminate. destruct (Q (p + h)) as [c0 c1 c2| | | | |]; try discriminate; try (cbn in F; tauto). eauto. }
  destruct X as (c0 & c1 & c2 & X). exists c0, c1, c2. split; [exact X|].
  assert (G : forall m, m <= h -> collect (stored_slot Q) p m = map (fun j => rgb (colours (Q j))) (seq (S p) m)).
  { induction m as [|m IH]; intros M; [reflexivity|]. cbn [collect]. rewrite IH by lia. rewrite seq_S, map_app. f_equal.
    unfold stored_slot. rewrite Z1 by lia. cbn [map]. do 4 f_equal. lia. }
  rewrite G by lia. destruct h as [|h]; [lia|]. rewrite seq_S, map_app. cbn [seq map tl]. f_equal.
  replace (S p + h) with (p + S h) by lia. rewrite X. reflexivity.
Qed.
Print Assumptions C131_line.

(** Lines of 138 clocks: blanking, two guard bands, 30 pixels, blanking with hsync, a data island of 32 clocks between its
    guard bands.  Three lines of pixels and one of blanking with vsync make a frame. *)
Definition ex_hs (m : nat) : bool := (80 <=? m mod 138) && (m mod 138 <? 90).
Definition ex_vs (m : nat) : bool := (424 <=? m mod 552) && (m mod 552 <? 514).
Definition ex_q (m : nat) : slot :=
  let x := m mod 138 in let z := Z.of_nat m in
  if (42 <=? x) && (x <? 72) && (m <? 414) then Pix (z mod 256) (z * 3 mod 256) (z * 7 mod 256)
  else if (40 <=? x) && (x <? 42) && (m <? 414) then VGuard
  else if (x <? 102) then Ctl (Z.b2z (negb (ex_hs m)) + 2 * Z.b2z (ex_vs m)) (if (32 <=? x) && (x <? 40) then 1 else if (94 <=? x) then 1 else 0) (if 94 <=? x then 1 else 0)
  else if (x <? 104) then Lead 12
  else if (x <? 136) then Packet (z mod 16) (z * 5 mod 16) (z * 9 mod 16)
  else Trail 13.
Definition ex_src (n : nat) : slot := ex_q (n mod 552).
Definition ex_word (s : slot) (k : nat) : Z :=
  match s with
  | Ctl c0 c1 c2 => of_bits (dvi_control (nth k [c0; c1; c2] 0%Z))
  | VGuard => video_guard k
  | Pix r g b => of_bits (fst (dvi_pixel (nth k [b; g; r] 0%Z) 0))
  | Packet d0 d1 d2 => terc4 (nth k [d0; d1; d2] 0%Z)
  | Lead d | Trail d => match k with O => terc4 d | _ => data_guard end
  end.
Definition ex_W (k n : nat) : Z := ex_word (ex_src n) k.
Definition in_range (x m : Z) : bool := ((0 <=? x) && (x <? m))%Z.
Definition slot_ok (s : slot) : bool :=
  match s with
  | Ctl a b c => in_range a 4 && in_range b 4 && in_range c 4
  | Pix a b c => in_range a 256 && in_range b 256 && in_range c 256
  | Packet a b c => in_range a 16 && in_range b 16 && in_range c 16
  | Lead d | Trail d => in_range d 16
  | VGuard => true
  end.
Lemma in_range_ok : forall x m, in_range x m = true -> (0 <= x < m)%Z.
Proof. intros x m H. unfold in_range in H. apply andb_true_iff in H. lia. Qed.
Lemma ex_word_ok : forall s k, slot_ok s = true -> k < 3 -> sends s k (ex_word s k).
Proof.
  intros s k O K. destruct s; cbn [slot_ok sends ex_word] in *; try rewrite !andb_true_iff in O.
  - destruct O as [[A B] C]. apply in_range_ok in A, B, C. destruct k as [|[|[|k]]]; try lia; cbn [nth]; auto.
  - reflexivity.
  - destruct O as [[A B] C]. apply in_range_ok in A, B, C. destruct k as [|[|[|k]]]; try lia; cbn [nth]; split; eauto.
  - apply in_range_ok in O. destruct k; auto.
  - destruct O as [[A B] C]. apply in_range_ok in A, B, C. destruct k as [|[|[|k]]]; try lia; cbn [nth]; auto.
  - apply in_range_ok in O. destruct k; auto.
Qed.
Definition followsb (a b : slot) : bool :=
  match a, b with
  | Ctl _ _ _, (Ctl _ _ _ | VGuard | Lead _) => true
  | VGuard, (VGuard | Pix _ _ _) => true
  | Pix _ _ _, (Pix _ _ _ | Ctl _ _ _) => true
  | Lead _, (Lead _ | Packet _ _ _) => true
  | Packet _ _ _, (Packet _ _ _ | Trail _) => true
  | Trail _, (Trail _ | Ctl _ _ _) => true
  | _, _ => false
  end.
Definition ex_c1 (m : nat) : bool := slot_ok (ex_q m).
Definition ex_c2 (m : nat) : bool := followsb (ex_q m) (ex_q ((m + 1) mod 552)).
Definition ex_c3 (m : nat) : bool :=
  let s' := ex_q ((m + 1) mod 552) in negb (is_pix s') || existsb (fun k => negb (ex_word s' k =? video_guard k)%Z) (seq 0 3).
Definition ex_c4 (m : nat) : bool :=
  match ex_q m with Ctl c0 _ _ => eqb (bit c0 0) (xorb (ex_hs m) true) && eqb (bit c0 1) (xorb (ex_vs m) false) | _ => true end.
Definition ex_c5 (m : nat) : bool :=
  let m2 := (m + 2) mod 552 in let m1 := (m + 1) mod 552 in
  negb (is_pix (ex_q m) && negb (is_pix (ex_q m1))) || negb (ex_hs m1 || ex_hs m2 || ex_vs m1 || ex_vs m2).
Lemma ex_checked : forall f, forallb f (seq 0 552) = true -> forall n, f (n mod 552) = true.
Proof.
  intros f A n. rewrite forallb_forall in A. apply A. apply in_seq. pose proof (Nat.mod_upper_bound n 552 ltac:(lia)). lia.
Qed.
Lemma ex_k1 : forall n, ex_c1 (n mod 552) = true.
Proof. apply ex_checked. vm_compute. reflexivity. Qed.
Lemma ex_k2 : forall n, ex_c2 (n mod 552) = true.
Proof. apply ex_checked. vm_compute. reflexivity. Qed.
Lemma ex_k3 : forall n, ex_c3 (n mod 552) = true.
Proof. apply ex_checked. vm_compute. reflexivity. Qed.
Lemma ex_k4 : forall n, ex_c4 (n mod 552) = true.
Proof. apply ex_checked. vm_compute. reflexivity. Qed.
Lemma ex_k5 : forall n, ex_c5 (n mod 552) = true.
Proof. apply ex_checked. vm_compute. reflexivity. Qed.
Lemma ex_mod : forall n d, (n mod 552 + d) mod 552 = (n + d) mod 552.
Proof. intros n d. apply Nat.add_mod_idemp_l. lia. Qed.
Lemma ex_per : forall n, ex_hs (n mod 552) = ex_hs n /\ ex_vs (n mod 552) = ex_vs n.
Proof.
  intros n. unfold ex_hs, ex_vs. rewrite (Nat.mod_mod n 552) by lia. split; [|reflexivity].
  replace ((n mod 552) mod 138) with (n mod 138); [reflexivity|].
  rewrite (Nat.div_mod n 552) at 1 by lia. replace (552 * (n / 552) + n mod 552) with (n mod 552 + (4 * (n / 552)) * 138) by lia.
  rewrite Nat.mod_add by lia. reflexivity.
Qed.

Example ex_source : hdmi_source ex_src ex_W /\ sync_coded ex_src ex_hs ex_vs true false /\ quiet_after_line ex_src ex_hs ex_vs /\
  lock_sequence ex_src 1 40 72 /\ wired ex_W ex_L (fun n k => delayed (ex_W k) (ex_L k) n) /\ rx_ok (rh_rx rh_init) /\ one_deep rh_init /\
  line_at ex_src 180 30 /\ line_ends ex_src 210 = true.
Proof.
  split; [split|].
  - intros n k K. apply ex_word_ok; [exact (ex_k1 n)|exact K].
  - intros n. pose proof (ex_k2 n) as C. unfold ex_c2 in C.
    rewrite ex_mod in C. fold (ex_src n) in C. fold (ex_src (n + 1)) in C. destruct (ex_src n), (ex_src (n + 1)); cbn in *; try discriminate; exact I.
  - intros n _ P. pose proof (ex_k3 n) as C. unfold ex_c3 in C.
    rewrite ex_mod in C. fold (ex_src (n + 1)) in C. rewrite P in C. cbn [negb orb] in C.
    apply existsb_exists in C as (k & Hk & C). apply in_seq in Hk. exists k. split; [lia|].
    apply negb_true_iff, Z.eqb_neq in C. exact C.
  - split.
    { intros n c0 c1 c2 E. pose proof (ex_k4 n) as C. unfold ex_c4 in C.
      fold (ex_src n) in C. rewrite E in C. apply andb_true_iff in C as [A B]. apply eqb_prop in A, B. destruct (ex_per n) as [P1 P2].
      rewrite P1 in A. rewrite P2 in B. split; assumption. }
    split.
    { intros n P1 P2. pose proof (ex_k5 n) as C. unfold ex_c5 in C.
      rewrite !ex_mod in C. fold (ex_src n) in C. fold (ex_src (n + 1)) in C. rewrite P1, P2 in C. cbn [negb andb orb] in C.
      destruct (ex_per (n + 1)) as [A1 A2], (ex_per (n + 2)) as [A3 A4]. rewrite A1, A2, A3, A4 in C.
      destruct (ex_hs (n + 1)), (ex_vs (n + 1)), (ex_hs (n + 2)), (ex_vs (n + 2)); cbn in C; try discriminate; repeat split. }
    assert (IV : forall p x y, forallb p (seq x (y - x)) = true -> forall n, x <= n < y -> p n = true).
    { intros p x y A n N. rewrite forallb_forall in A. apply A. apply in_seq. lia. }
    split.
    { split; [lia|]. split; [lia|]. split; [lia|]. split; [|split].
      - apply (IV (fun n => is_ctl (ex_src n))). vm_compute. reflexivity.
      - intros n N. apply negb_true_iff. revert n N. apply (IV (fun n => negb (is_ctl (ex_src n)))). vm_compute. reflexivity.
      - apply (IV (fun n => is_ctl (ex_src n))). vm_compute. reflexivity. }
    split.
    { split; [exists 0; apply ex_hyp|]. intros k K. apply delayed_ok. }
    split; [exact (proj1 (proj2 (proj2 ex_hyp)))|]. split; [repeat split|]. split; [|vm_compute; reflexivity].
    split; [lia|]. split; [lia|]. split; [vm_compute; reflexivity|]. split; [|vm_compute; reflexivity].
    intros j J. apply (IV (fun n => is_pix (ex_src n)) 180 210); [vm_compute; reflexivity|lia].
Qed.

(** The receiver's outputs around the start and the end of the second line, and its width. *)
Definition ex_tab (k : nat) : list Z := map (ex_W k) (seq 0 260).
Definition ex_hraw : nat -> nat -> Z :=
  let w0 := ex_tab 0 in let w1 := ex_tab 1 in let w2 := ex_tab 2 in
  fun n k => delayed (fun j => nth j (match k with 0 => w0 | 1 => w1 | _ => w2 end) 852%Z) (ex_L k) n.
Definition ex_out (s : rh_st) := let o := rx_sp (rh_rx s) in (sp_valid o, sp_de o, (sp_r o, sp_g o, sp_b o), sp_hsync o).
Example ex_delivered :
  let s := rh_run rh_init ex_hraw hdmi_mode 190 in let run := at_ rh_step s (fun t => (ex_hraw (190 + t), false)) in
  map (fun n => ex_out (run n)) [0; 1; 2; 29; 30; 31]
  = [(true, false, (180, 28, 236), true); (true, true, (181, 31, 243), true); (true, true, (182, 34, 250), true);
     (true, true, (209, 115, 183), true); (true, true, (253, 253, 3), true); (true, false, (253, 253, 3), false)]%Z /\
  rd_h (rx_rd (rh_rx (run 33))) = 30%Z /\ colours (ex_src 210) = (253, 253, 3)%Z.
Proof. vm_compute. repeat split. Qed.
