(** C71 and C72: a frame buffer sent by the rgb video output over the DVI link,
    as measured and captured by the receiver. *)
From Coq Require Import ZArith List Bool Lia Arith.
From Verif Require Import Hdl Trace TmdsModel TmdsSpec TimingModel TimingSpec TimingProofs VideoOutModel VideoOutProofs
  CharSyncModel CharSyncSpec ChanSyncModel ChanSyncProofs ChanSyncProps AnalysisModel FrameProofs FrameProps
  HdmiModel HdmiProofs HdmiProps LinkModel LinkProofs.
Import ListNotations.
Open Scope Z_scope.

(** The link of C70: channel [k] arrives [L k] bits late, skew at most 70 bits,
    receiver in any state. *)
Definition link (t : nat -> px) (L : nat -> nat) (Lmin : nat) (raw : nat -> nat -> Z) (s0 : rx_st) : Prop :=
  (forall k, (k < 3)%nat -> (Lmin <= L k <= Lmin + 70)%nat) /\
  (forall k, (k < 3)%nat ->
     (forall n, 0 <= raw n k < 1024) /\
     (forall b, (L k <= b)%nat -> serial (fun n => raw n k) b = serial (tx_word t k) (b - L k))) /\
  (forall k, (k < 3)%nat -> 0 <= cs_cnt (rx_cs_of s0 k) <= 7 /\ well_formed 8 (cy_buf (rx_cy s0) k)).

(** The same, but the receiver starts when the transmitter is at clock [N]. *)
Definition link_at (N : nat) (t : nat -> px) (L : nat -> nat) (Lmin : nat) (raw : nat -> nat -> Z) (s0 : rx_st) : Prop :=
  (forall k, (k < 3)%nat -> (Lmin <= L k <= Lmin + 70)%nat) /\
  (forall k, (k < 3)%nat ->
     (forall n, 0 <= raw n k < 1024) /\
     (forall b, (L k <= b)%nat -> serial (fun n => raw n k) b = serial (tx_word t k) (10 * N + b - L k))) /\
  (forall k, (k < 3)%nat -> 0 <= cs_cnt (rx_cs_of s0 k) <= 7 /\ well_formed 8 (cy_buf (rx_cy s0) k)).
Lemma link_at_0 : forall t L Lmin raw s0, link t L Lmin raw s0 -> link_at 0 t L Lmin raw s0.
Proof. intros t L Lmin raw s0 H. exact H. Qed.
Lemma serial_from : forall W N b, serial (fun n => W (N + n)%nat) b = serial W (10 * N + b).
Proof.
  intros W N b. unfold serial. replace (10 * N + b)%nat with (b + N * 10)%nat by lia. rewrite Nat.div_add, Nat.mod_add by lia.
  rewrite (Nat.add_comm (b / 10)). reflexivity.
Qed.

Section Setup.
Variable p : fparam.
Hypothesis lk : link_ok p.
Variable w : nat -> Z.
Variable L : nat -> nat.
Variable Lmin : nat.
Variable raw : nat -> nat -> Z.
Variable s0 : rx_st.
Hypothesis Hlink : link (tx_stream p w) L Lmin raw s0.
Let rx := rx_run s0 raw.
Let HV := Z.to_nat ((p_hscan p + 1) * (p_vscan p + 1)).

Lemma link_tx : exists D, (forall k, (k < 3)%nat -> (L k / 10 + 7 < D <= L k / 10 + 15)%nat) /\
  forall n, (clk p 2 0 (p_hres p) <= n)%nat ->
  let o := rx_sp (rx (n + D)) in
  sp_valid o = true /\ sp_de o = tx_de p n /\ sp_hsync o = tx_hs p n /\ sp_vsync o = tx_vs p n /\
  (tx_de p n = true ->
   let d := w (pixels_before p (n - 1)) in sp_r o = slice 0 8 d /\ sp_g o = slice 8 8 d /\ sp_b o = slice 16 8 d).
Proof.
  destruct Hlink as (HL & Hraw & Hs0). pose proof lk as LK. destruct LK as [ok ? ? ? ? ?]. pose proof ok as OK.
  destruct OK as [? ? ? ? ? ? ? ?].
  pose proof (clk_z p lk 1 0 0 ltac:(lia) ltac:(lia) ltac:(lia)) as Z1.
  assert (POS : 30 <= (p_hscan p + 1) * (p_vscan p + 1)) by nia.
  destruct (link_end_to_end (tx_stream p w) (tx_px_ok p ok w) L Lmin HL raw Hraw s0 Hs0
    (clk p 1 0 0 - 30) (clk p 1 0 0) (clk p 1 0 0 + Z.to_nat (p_hres p)) ltac:(nia) ltac:(lia)) as (D & B & P & Sy).
  - intros n Hn. rewrite tx_stream_de by exact ok.
    replace n with (clk p 0 (p_vscan p) (p_hscan p + 1 - (Z.of_nat (clk p 1 0 0) - Z.of_nat n))).
    + rewrite clk_de by (try exact lk; lia). destruct (Z.ltb_spec (p_vscan p) (p_vres p)); [lia|]. apply andb_false_r.
    + apply Nat2Z.inj. rewrite clk_z by (try exact lk; lia). lia.
  - intros n Hn. rewrite tx_stream_de by exact ok.
    replace n with (clk p 1 0 (0 + Z.of_nat (n - clk p 1 0 0))).
    + rewrite clk_de by (try exact lk; lia). apply andb_true_iff. split; apply Z.ltb_lt; lia.
    + rewrite clk_succ_x by (try exact lk; lia). lia.
  - intros n Hn. rewrite tx_stream_de by exact ok.
    replace n with (clk p 1 0 (0 + Z.of_nat (n - clk p 1 0 0))).
    + rewrite clk_de by (try exact lk; lia). apply andb_false_iff. left. apply Z.ltb_ge; lia.
    + rewrite clk_succ_x by (try exact lk; lia). lia.
  - exists D. split; [exact B|]. fold rx in P, Sy.
    pose proof (clk_z p lk 2 0 (p_hres p) ltac:(lia) ltac:(lia) ltac:(lia)) as Z2.
    pose proof (clk_z p lk 2 0 (p_hres p - 1) ltac:(lia) ltac:(lia) ltac:(lia)) as Z3.
    assert (Hf : S (clk p 2 0 (p_hres p - 1)) = clk p 2 0 (p_hres p)) by lia.
    assert (Hb : (clk p 1 0 0 + Z.to_nat (p_hres p) + 16 <= clk p 2 0 (p_hres p - 1))%nat).
    { assert (54 <= (p_hscan p + 1) * (p_vscan p + 1)) by nia. nia. }
    intros n Hn o. destruct (P n ltac:(lia)) as (P1 & P2 & P3). fold o in P1, P2, P3.
    rewrite tx_stream_de in P2, P3 by exact ok.
    destruct (Sy (tx_hs p) (tx_vs p) false false) with (f := clk p 2 0 (p_hres p - 1)) (n := n) as [S1 S2].
    + intros m. rewrite tx_stream_hs, tx_stream_vs, !xorb_false_r by exact ok. auto.
    + intros u m. rewrite tx_stream_de by exact ok. apply tx_away. exact lk.
    + exact Hb.
    + rewrite tx_stream_de, clk_de by (try exact ok; try exact lk; lia). apply andb_true_iff. split; apply Z.ltb_lt; lia.
    + rewrite Hf, tx_stream_de, clk_de by (try exact ok; try exact lk; lia). apply andb_false_iff. left. apply Z.ltb_ge; lia.
    + lia.
    + fold o in S1, S2. split; [exact P1|]. split; [exact P2|]. split; [exact S1|]. split; [exact S2|].
      intros T. destruct (P3 T) as (R & G & Bl). destruct (tx_stream_rgb p ok w n) as (R' & G' & B').
      cbv zeta. rewrite <- R', <- G', <- B'. auto.
Qed.
End Setup.

(** The resolution is right three frames after the first whole one. *)
Lemma frame_resolution : forall p, link_ok p -> forall w s0 raw D g, 0 <= g ->
  (forall n, (clk p g 0 (p_hres p) <= n)%nat ->
   let o := rx_sp (rx_run s0 raw (n + D)) in
   sp_valid o = true /\ sp_de o = tx_de p n /\ sp_hsync o = tx_hs p n /\ sp_vsync o = tx_vs p n /\
   (tx_de p n = true ->
    let d := w (pixels_before p (n - 1)) in sp_r o = slice 0 8 d /\ sp_g o = slice 8 8 d /\ sp_b o = slice 16 8 d)) ->
  forall n, Z.of_nat D + (g + 3) * ((p_hscan p + 1) * (p_vscan p + 1)) <= Z.of_nat n ->
  let r := rx_rd (rx_run s0 raw n) in rd_h r = p_hres p mod 2 ^ 11 /\ rd_v r = p_vres p mod 2 ^ 11.
Proof.
  intros p lk w s0 raw D g Hg P n Hn r. unfold r. rewrite rx_rd_run.
  pose proof lk as LK. destruct LK as [ok H1 H2 H3 H4 H5].
  pose proof (clk_z p lk g 0 (p_hres p) ltac:(lia) ltac:(lia) ltac:(lia)) as Z2.
  destruct ok as [? ? ? ? ? ? ? ?].
  assert (A1 : p_hres p + 30 <= (p_hscan p + 1) * (p_vscan p + 1)) by nia.
  apply (resolution p lk (rx_rd s0) (fun t => rx_rd_in (rx_run s0 raw t)) D (clk p g 0 (p_hres p) + D)).
  - nia.
  - intros m Hm. destruct (P (m - D)%nat ltac:(lia)) as (P1 & P2 & _ & P4 & _).
    replace (m - D + D)%nat with m in * by lia. unfold rx_rd_in. cbn [rdi_valid rdi_de rdi_vsync].
    split; [exact P1|]. rewrite P2, P4. unfold tx_de, tx_vs.
    replace (1 <=? m - D)%nat with true by (symmetry; apply Nat.leb_le; nia). cbn [andb].
    replace (Z.of_nat (m - D) - 1) with (Z.of_nat m - Z.of_nat D - 1) by lia. auto.
  - set (HV := (p_hscan p + 1) * (p_vscan p + 1)) in *.
    assert (Z.of_nat (Z.to_nat HV) = HV) by lia.
    replace ((g * (p_vscan p + 1) + 0) * (p_hscan p + 1)) with (g * HV) in Z2 by (unfold HV; ring). lia.
Qed.

(** C71.  From the fifth frame on (plus the latency of the link) the receiver
    reports the transmitter's resolution, modulo the width of its 11-bit
    counters, for ever. *)
Theorem C71_resolution_over_link :
  forall p : fparam,
  params_ok p -> 24 <= p_hres p -> p_hres p + 30 <= p_hscan p + 1 -> 1 <= p_vres p <= p_vscan p ->
  p_hres p < p_hs_start p -> p_vres p <= p_vs_start p < p_vs_end p ->
  forall w L Lmin raw s0, link (tx_stream p w) L Lmin raw s0 ->
  exists D, (forall k, (k < 3)%nat -> (L k / 10 + 7 < D <= L k / 10 + 15)%nat) /\
  forall n, Z.of_nat D + 5 * ((p_hscan p + 1) * (p_vscan p + 1)) <= Z.of_nat n ->
  let r := rx_rd (rx_run s0 raw n) in rd_h r = p_hres p mod 2 ^ 11 /\ rd_v r = p_vres p mod 2 ^ 11.
Proof.
  intros p ok H1 H2 H3 H4 H5 w L Lmin raw s0 Hl.
  assert (lk : link_ok p) by (constructor; assumption).
  destruct (link_tx p lk w L Lmin raw s0 Hl) as (D & B & P). exists D. split; [exact B|].
  intros n Hn. apply (frame_resolution p lk w s0 raw D 2 ltac:(lia) P). lia.
Qed.
Print Assumptions C71_resolution_over_link.

(** ** C72 *)

(** The input of the receiver's frame packer. *)
Definition pk_stream (s0 : rx_st) (raw : nat -> nat -> Z) (t : nat) : pk_in := rx_pk_in (rx_run s0 raw t).

(** The 32-bit pixel stored for the frame buffer word [d]: red and blue, the low
    and the third byte of [d], change places. *)
Definition stored (d : Z) : Z := slice 16 8 d + 2 ^ 8 * slice 8 8 d + 2 ^ 16 * slice 0 8 d.

Lemma collect_shift : forall (A : Type) (f : nat -> option A) D a n,
  collect f (a + D) n = collect (fun t => f (t + D)%nat) a n.
Proof.
  intros A f D a. induction n as [|n IH]; [reflexivity|]. cbn [collect]. rewrite IH.
  replace (a + D + n)%nat with (a + n + D)%nat by lia. reflexivity.
Qed.

Lemma pixels_before_mono : forall p a b, (a <= b)%nat -> (pixels_before p a <= pixels_before p b)%nat.
Proof. intros p a b H. induction H as [|b H IH]; [lia|]. unfold pixels_before in *. cbn [occurrences]. lia. Qed.

Lemma collect_pixels : forall p (g : nat -> Z) a m, (1 <= a)%nat ->
  collect (fun n => if tx_de p n then Some (g (pixels_before p (n - 1))) else None) a m =
  map g (seq (pixels_before p (a - 1)) (pixels_before p (a + m - 1) - pixels_before p (a - 1))).
Proof.
  intros p g a m Ha. induction m as [|m IH].
  - rewrite Nat.add_0_r, Nat.sub_diag. reflexivity.
  - cbn [collect]. rewrite IH. clear IH.
    pose proof (pixels_before_mono p (a - 1) (a + m - 1) ltac:(lia)) as M.
    replace (a + S m - 1)%nat with (S (a + m - 1)) by lia.
    assert (E : pixels_before p (S (a + m - 1)) = (pixels_before p (a + m - 1) + (if tx_de p (a + m) then 1 else 0))%nat).
    { unfold pixels_before at 1. cbn [occurrences]. rewrite Nat.add_0_l. fold (pixels_before p (a + m - 1)). f_equal.
      unfold tx_de. replace (1 <=? a + m)%nat with true by (symmetry; apply Nat.leb_le; lia). cbn [andb].
      replace (Z.of_nat (a + m) - 1) with (Z.of_nat (a + m - 1)) by lia. reflexivity. }
    rewrite E. destruct (tx_de p (a + m)).
    + replace (pixels_before p (a + m - 1) + 1 - pixels_before p (a - 1))%nat
        with (S (pixels_before p (a + m - 1) - pixels_before p (a - 1))) by lia.
      rewrite seq_S, map_app. cbn [map]. do 3 f_equal. lia.
    + rewrite app_nil_r. f_equal. f_equal. lia.
Qed.

(** A packer input [i] whose vsync is the transmitter's [D] clocks late, and
    whose pixels come [E] clocks later than that. *)
Section Capture.
Variable p : fparam.
Hypothesis lk : link_ok p.
Variable i : nat -> pk_in.
Variables D E : nat.
Hypothesis HE : (E <= 28)%nat.
Variable px : nat -> Z.   (* stored pixels *)
Variable g : Z.   (* first frame received whole *)
Hypothesis Hg : 0 <= g.
Hypothesis i_vs : forall n, (clk p g 0 (p_hres p) <= n)%nat -> pki_vsync (i (n + D)) = tx_vs p n.
Hypothesis i_px : forall n, (clk p g 0 (p_hres p) <= n)%nat ->
  pixel_in i (n + (D + E)) = if tx_de p n then Some (px (pixels_before p (n - 1))) else None.
Let N := Z.to_nat (p_hres p * p_vres p).
Let vs f := clk p f (p_vs_start p) 0.

Lemma vs_z : forall f, 0 <= f -> Z.of_nat (vs f) = 1 + (f * (p_vscan p + 1) + p_vs_start p) * (p_hscan p + 1).
Proof. clear HE Hg i_vs i_px. intros f F. destruct lk as [ok ? ? ? ? ?]. destruct ok. unfold vs. rewrite clk_z by (try exact lk; lia). lia. Qed.
Lemma vs_late : forall f, g <= f -> (clk p g 0 (p_hres p) + 30 <= vs f)%nat.
Proof. clear HE i_px i_vs.
  intros f F. pose proof (vs_z f ltac:(lia)). destruct lk as [ok ? ? ? ? ?]. destruct ok.
  pose proof (clk_z p lk g 0 (p_hres p) ltac:(lia) ltac:(lia) ltac:(lia)).
  assert (g * (p_vscan p + 1) + 1 <= f * (p_vscan p + 1) + p_vs_start p) by nia. nia.
Qed.
Lemma vs_next : forall f, 0 <= f -> (vs f < vs (f + 1))%nat.
Proof. clear HE Hg i_vs i_px. intros f F. pose proof (vs_z f F). pose proof (vs_z (f + 1) ltac:(lia)). destruct lk as [ok ? ? ? ? ?]. destruct ok. nia. Qed.

Lemma i_rise : forall n, (clk p g 0 (p_hres p) <= n)%nat ->
  rises (fun t => pki_vsync (i t)) (S n + D) = (scan_x p (Z.of_nat n) =? 0) && (scan_y p (Z.of_nat n) =? p_vs_start p).
Proof. clear HE i_px.
  intros n Hn. destruct lk as [ok ? ? ? ? ?].
  assert (N1 : (1 <= n)%nat).
  { pose proof (clk_z p lk g 0 (p_hres p) ltac:(lia) ltac:(lia) ltac:(lia)). destruct ok. nia. }
  unfold rises. change (S n + D)%nat with (S (n + D)) at 2. cbv beta iota.
  rewrite !i_vs by lia. unfold tx_vs.
  replace (1 <=? n)%nat with true by (symmetry; apply Nat.leb_le; lia).
  replace (1 <=? S n)%nat with true by (symmetry; apply Nat.leb_le; lia). cbn [andb].
  replace (Z.of_nat (S n) - 1) with (Z.of_nat n - 1 + 1) by lia. replace (Z.of_nat n) with (Z.of_nat n - 1 + 1) at 3 4 by lia.
  unfold spec_vsync. destruct (scan_succ p ok (Z.of_nat n - 1) ltac:(lia)) as [-> ->].
  destruct (scan_range p ok (Z.of_nat n - 1)) as [RX RY]. destruct ok.
  destruct (Z.eqb_spec (scan_x p (Z.of_nat n - 1)) (p_hscan p)); destruct (Z.eqb_spec (scan_y p (Z.of_nat n - 1)) (p_vscan p));
  repeat match goal with
  | |- context [?a <? ?b] => destruct (Z.ltb_spec a b)
  | |- context [?a <=? ?b] => destruct (Z.leb_spec a b)
  | |- context [?a =? ?b] => destruct (Z.eqb_spec a b)
  end; cbn [andb negb]; try reflexivity; lia.
Qed.

Lemma i_frame : forall f, g <= f -> frame_between i (vs f + D) (vs (f + 1) + D).
Proof. clear HE i_px.
  intros f F. pose proof (vs_late f F) as VL. pose proof (vs_next f ltac:(lia)) as VN.
  pose proof (vs_z f ltac:(lia)) as Z1. pose proof (vs_z (f + 1) ltac:(lia)) as Z2.
  destruct lk as [ok ? ? ? ? ?]. pose proof ok as OK. destruct OK as [? ? ? ? ? ? ? ?]. split; [lia|]. split.
  - replace (vs f) with (S (vs f - 1)) by lia. rewrite i_rise by lia.
    replace (Z.of_nat (vs f - 1)) with (Z.of_nat (vs f) - 1) by lia. unfold vs.
    destruct (clk_xy p lk f (p_vs_start p) 0 ltac:(lia) ltac:(lia) ltac:(lia)) as [-> ->]. rewrite !Z.eqb_refl. reflexivity.
  - intros t Ht. replace t with (S (t - D - 1) + D)%nat by lia. rewrite i_rise by lia.
    set (n := Z.of_nat (t - D - 1)). unfold scan_x, scan_y.
    destruct (Z.eqb_spec (n mod (p_hscan p + 1)) 0) as [EX|]; [|reflexivity].
    destruct (Z.eqb_spec (n / (p_hscan p + 1) mod (p_vscan p + 1)) (p_vs_start p)) as [EY|]; [|reflexivity].
    exfalso. pose proof (Z.div_mod n (p_hscan p + 1) ltac:(lia)) as D1.
    pose proof (Z.div_mod (n / (p_hscan p + 1)) (p_vscan p + 1) ltac:(lia)) as D2. rewrite EX in D1. rewrite EY in D2.
    set (q := n / (p_hscan p + 1)) in *. set (r := q / (p_vscan p + 1)) in *.
    assert (A1 : Z.of_nat (vs f) - 1 < n < Z.of_nat (vs (f + 1)) - 1) by (unfold n; lia).
    rewrite Z1, Z2 in A1.
    assert (B1 : f * (p_vscan p + 1) + p_vs_start p < q) by (apply (Z.mul_lt_mono_pos_r (p_hscan p + 1)); lia).
    assert (B2 : q < (f + 1) * (p_vscan p + 1) + p_vs_start p) by (apply (Z.mul_lt_mono_pos_r (p_hscan p + 1)); lia).
    assert (f < r) by (apply (Z.mul_lt_mono_pos_r (p_vscan p + 1)); lia).
    assert (r < f + 1) by (apply (Z.mul_lt_mono_pos_r (p_vscan p + 1)); lia). lia.
Qed.

Lemma vs_taken_before : forall f, 0 <= f ->
  Z.of_nat (pixels_before p (vs f - 1)) = (f + 1) * (p_hres p * p_vres p) /\
  Z.of_nat (pixels_before p (vs f)) = (f + 1) * (p_hres p * p_vres p).
Proof. clear HE Hg i_vs i_px.
  intros f F. pose proof (vs_z f F) as Z1. destruct lk as [ok ? ? ? ? ?]. pose proof ok as OK. destruct OK as [? ? ? ? ? ? ? ?].
  destruct (clk_xy p lk f (p_vs_start p) 0 ltac:(lia) ltac:(lia) ltac:(lia)) as [X Y].
  assert (V1 : (1 <= vs f)%nat) by nia.
  assert (A : Z.of_nat (pixels_before p (vs f - 1)) = (f + 1) * (p_hres p * p_vres p)).
  { rewrite pixels_before_closed by exact ok. cbv zeta.
    replace (Z.of_nat (vs f - 1)) with (Z.of_nat (clk p f (p_vs_start p) 0) - 1) by (fold (vs f); lia). rewrite X, Y.
    destruct (Z.ltb_spec (p_vs_start p) (p_vres p)); [lia|].
    replace (Z.of_nat (clk p f (p_vs_start p) 0) - 1) with ((f * (p_vscan p + 1) + p_vs_start p) * (p_hscan p + 1))
      by (fold (vs f); lia).
    rewrite Z.div_mul by lia.
    replace ((f * (p_vscan p + 1) + p_vs_start p) / (p_vscan p + 1)) with f by (apply (Z.div_unique _ _ _ (p_vs_start p)); lia).
    lia. }
  split; [exact A|].
  replace (vs f) with (S (vs f - 1)) by lia. unfold pixels_before. cbn [occurrences]. rewrite Nat.add_0_l.
  fold (pixels_before p (vs f - 1)). unfold spec_de.
  replace (Z.of_nat (vs f - 1)) with (Z.of_nat (clk p f (p_vs_start p) 0) - 1) by (fold (vs f); lia). rewrite X, Y.
  destruct (Z.ltb_spec (p_vs_start p) (p_vres p)); [lia|]. rewrite andb_false_r, Nat.add_0_r. exact A.
Qed.

(** No pixel is sent in the 29 clocks before. *)
Lemma vs_quiet : forall f e, 0 <= f -> (e <= 29)%nat -> pixels_before p (vs f - e) = pixels_before p (vs f).
Proof. clear HE Hg i_vs i_px.
  intros f e F. pose proof (vs_z f F) as Z1. destruct lk as [ok ? ? ? ? ?]. pose proof ok as OK. destruct OK as [? ? ? ? ? ? ? ?].
  assert (V1 : (30 <= vs f)%nat) by nia.
  induction e as [|e IH]; intros L; [rewrite Nat.sub_0_r; reflexivity|]. rewrite <- IH by lia.
  replace (vs f - e)%nat with (S (vs f - S e)) by lia. unfold pixels_before at 2. cbn [occurrences]. rewrite Nat.add_0_l.
  fold (pixels_before p (vs f - S e)). unfold spec_de.
  destruct (Nat.eq_dec e 0) as [->|E0].
  - destruct (clk_xy p lk f (p_vs_start p) 0 ltac:(lia) ltac:(lia) ltac:(lia)) as [X Y].
    replace (Z.of_nat (vs f - 1)) with (Z.of_nat (clk p f (p_vs_start p) 0) - 1) by (fold (vs f); lia). rewrite X, Y.
    destruct (Z.ltb_spec (p_vs_start p) (p_vres p)); [lia|]. rewrite andb_false_r, Nat.add_0_r. reflexivity.
  - destruct (clk_xy p lk f (p_vs_start p - 1) (p_hscan p + 1 - Z.of_nat e) ltac:(lia) ltac:(lia) ltac:(lia)) as [X Y].
    replace (Z.of_nat (vs f - S e)) with (Z.of_nat (clk p f (p_vs_start p - 1) (p_hscan p + 1 - Z.of_nat e)) - 1).
    + rewrite X, Y. destruct (Z.ltb_spec (p_hscan p + 1 - Z.of_nat e) (p_hres p)); [lia|]. cbn [andb]. lia.
    + rewrite clk_z by (try exact lk; lia). lia.
Qed.

(** The pixels offered between the vsync edges are frame [f+1]'s. *)
Lemma i_pixels : forall f, g <= f ->
  collect (pixel_in i) (vs f + D + 1) (vs (f + 1) + D - (vs f + D) - 1) =
  map (fun k => px (Z.to_nat (f + 1) * N + k)%nat) (seq 0 N).
Proof. clear i_vs.
  intros f F. pose proof (vs_late f F) as VL. pose proof (vs_next f ltac:(lia)) as VN.
  replace (vs f + D + 1)%nat with (vs f + 1 - E + (D + E))%nat by lia. rewrite collect_shift.
  replace (vs (f + 1) + D - (vs f + D) - 1)%nat with (vs (f + 1) - vs f - 1)%nat by lia.
  rewrite (collect_ext _ _ (fun n => if tx_de p n then Some (px (pixels_before p (n - 1))) else None)).
  - rewrite collect_pixels with (g := px) by lia.
    replace (vs f + 1 - E - 1)%nat with (vs f - E)%nat by lia.
    replace (vs f + 1 - E + (vs (f + 1) - vs f - 1) - 1)%nat with (vs (f + 1) - 1 - E)%nat by lia.
    rewrite vs_quiet by lia. destruct (vs_taken_before f ltac:(lia)) as [_ A]. destruct (vs_taken_before (f + 1) ltac:(lia)) as [_ B1].
    assert (B : Z.of_nat (pixels_before p (vs (f + 1) - 1 - E)) = (f + 1 + 1) * (p_hres p * p_vres p)).
    { replace (vs (f + 1) - 1 - E)%nat with (vs (f + 1) - S E)%nat by lia. rewrite vs_quiet by lia. exact B1. }
    assert (NZ : Z.of_nat N = p_hres p * p_vres p) by (unfold N; destruct lk; rewrite Z2Nat.id; nia).
    rewrite <- NZ in A, B.
    assert (EA : pixels_before p (vs f) = (Z.to_nat (f + 1) * N)%nat).
    { apply Nat2Z.inj. rewrite A, Nat2Z.inj_mul, Z2Nat.id by lia. reflexivity. }
    rewrite EA.
    assert (EB : (pixels_before p (vs (f + 1) - 1 - E) - Z.to_nat (f + 1) * N = N)%nat).
    { apply Nat2Z.inj. rewrite Nat2Z.inj_sub; [rewrite B, Nat2Z.inj_mul, Z2Nat.id by lia; nia|].
      apply Nat2Z.inj_le. rewrite B, Nat2Z.inj_mul, Z2Nat.id by lia. nia. }
    rewrite EB. clear. set (a := (Z.to_nat (f + 1) * N)%nat). clearbody a. generalize N as m. intros m.
    rewrite <- (Nat.add_0_r a) at 1. generalize 0%nat as b. induction m as [|m IH]; intros b; [reflexivity|].
    cbn [seq map]. f_equal. rewrite <- Nat.add_succ_r. apply IH.
  - intros t Ht. apply i_px. lia.
Qed.
End Capture.

(** Words of [F] pixels each whose concatenation is known. *)
Lemma concat_groups : forall F (ls : list (list Z)) (g : nat -> Z) rest m, (1 <= F)%nat ->
  (forall l, In l ls -> length l = F) -> (length rest < F)%nat ->
  forall a, map g (seq a (F * m)) = concat ls ++ rest ->
  ls = map (fun j => map g (seq (a + F * j) F)) (seq 0 m) /\ rest = [].
Proof.
  intros F ls g rest m HF HL HR. revert m HR. induction ls as [|l ls IH]; intros m HR a E.
  - cbn [concat app] in E. assert (Hlen : length rest = (F * m)%nat) by (rewrite <- E, map_length, seq_length; reflexivity).
    assert (m = 0%nat) by (destruct m; nia). subst m. rewrite Nat.mul_0_r in Hlen. destruct rest; [auto|discriminate].
  - cbn [concat] in E. rewrite <- app_assoc in E.
    assert (Hl : length l = F) by (apply HL; left; reflexivity).
    destruct m as [|m].
    { rewrite Nat.mul_0_r in E. cbn in E. destruct l; [cbn in Hl; lia|discriminate]. }
    replace (F * S m)%nat with (F + F * m)%nat in E by lia. rewrite seq_app, map_app in E.
    assert (E1 : map g (seq a F) = l /\ map g (seq (a + F) (F * m)) = concat ls ++ rest).
    { assert (LEN : length (map g (seq a F)) = length l) by (rewrite map_length, seq_length; lia).
      clear - E LEN. revert E LEN. generalize (map g (seq a F)) as u. generalize (map g (seq (a + F) (F * m))) as v.
      generalize (concat ls ++ rest) as z. intros z v u. revert l. induction u as [|x u IH]; intros [|y l] E LEN;
        cbn in *; try discriminate; [auto|]. injection E as -> E. destruct (IH l E ltac:(lia)) as [-> ->]. auto. }
    destruct E1 as [E1 E2]. destruct (IH (fun l' H' => HL l' (or_intror H')) m HR _ E2) as [E3 E4]. split; [|exact E4].
    cbn [seq map]. rewrite Nat.mul_0_r, Nat.add_0_r, E1. f_equal. rewrite E3. rewrite <- (seq_shift m 0), map_map.
    apply map_ext. intros j. do 2 f_equal. lia.
Qed.

Lemma collect_tags : forall (f : nat -> option (bool * list Z)) a n,
  (forall t b l, (a <= t < a + n)%nat -> f t = Some (b, l) -> b = Nat.eqb (length (collect f a (t - a))) 0) ->
  map fst (collect f a n) = map (fun j => Nat.eqb j 0) (seq 0 (length (collect f a n))).
Proof.
  intros f a. induction n as [|n IH]; intros H; [reflexivity|]. cbn [collect]. rewrite map_app, app_length, IH by (intros; eapply H; [lia|eassumption]).
  destruct (f (a + n)%nat) as [[b l]|] eqn:E.
  - cbn [map length fst]. rewrite Nat.add_1_r, seq_S, map_app. cbn [map]. f_equal. f_equal.
    rewrite (H (a + n)%nat b l ltac:(lia) E). replace (a + n - a)%nat with n by lia. reflexivity.
  - cbn [map length]. rewrite app_nil_r, Nat.add_0_r. reflexivity.
Qed.

(** From the third whole frame on, the words pushed between two starts of vsync
    are those of one frame. *)
Lemma packed_words : forall p, link_ok p -> forall i D E, (E <= 28)%nat -> forall px g, 0 <= g ->
  (forall n, (clk p g 0 (p_hres p) <= n)%nat -> pki_vsync (i (n + D)%nat) = tx_vs p n) ->
  (forall n, (clk p g 0 (p_hres p) <= n)%nat ->
   pixel_in i (n + (D + E)) = if tx_de p n then Some (px (pixels_before p (n - 1))) else None) ->
  forall k m, (1 <= k)%nat -> let F := (2 ^ k)%nat in p_hres p * p_vres p = Z.of_nat (F * m) ->
  forall f t1 t2, g + 2 <= Z.of_nat f ->
  let vsync_of g := 1 + (g * (p_vscan p + 1) + p_vs_start p) * (p_hscan p + 1) in
  Z.of_nat t1 = vsync_of (Z.of_nat f - 1) + Z.of_nat D -> Z.of_nat t2 = vsync_of (Z.of_nat f) + Z.of_nat D ->
  collect (word_out F i) (t1 + 1) (t2 - t1) =
  map (fun j => (Nat.eqb j 0, rev (map (fun q => px (f * (F * m) + q)%nat) (seq (F * j) F)))) (seq 0 m).
Proof.
  intros p lk i D dE HE px g Hg HV HP k m Hk F HF f t1 t2 Hf vsync_of E1 E2.
  assert (T : forall v, 0 <= v -> Z.of_nat (clk p v (p_vs_start p) 0) = vsync_of v)
    by (intros v G; apply vs_z; [exact lk|exact G]).
  assert (X1 : t1 = (clk p (Z.of_nat f - 1) (p_vs_start p) 0 + D)%nat)
    by (apply Nat2Z.inj; rewrite Nat2Z.inj_add, T by lia; exact E1).
  assert (X2 : t2 = (clk p (Z.of_nat f - 1 + 1) (p_vs_start p) 0 + D)%nat)
    by (apply Nat2Z.inj; rewrite Nat2Z.inj_add, T by lia; replace (Z.of_nat f - 1 + 1) with (Z.of_nat f) by lia; exact E2).
  set (t0 := (clk p (Z.of_nat f - 1 - 1) (p_vs_start p) 0 + D)%nat).
  pose proof (i_frame p lk i D g Hg HV (Z.of_nat f - 1) ltac:(lia)) as FB. cbv zeta beta in FB. rewrite <- X1, <- X2 in FB.
  pose proof (i_frame p lk i D g Hg HV (Z.of_nat f - 1 - 1) ltac:(lia)) as FB0. cbv zeta beta in FB0.
  replace (Z.of_nat f - 1 - 1 + 1) with (Z.of_nat f - 1) in FB0 by lia. fold t0 in FB0. rewrite <- X1 in FB0.
  pose proof (i_pixels p lk i D dE HE px g Hg HP (Z.of_nat f - 1) ltac:(lia)) as PX. cbv zeta beta in PX. rewrite <- X1, <- X2 in PX.
  pose proof (i_pixels p lk i D dE HE px g Hg HP (Z.of_nat f - 1 - 1) ltac:(lia)) as PX0. cbv zeta beta in PX0.
  replace (Z.of_nat f - 1 - 1 + 1) with (Z.of_nat f - 1) in PX0 by lia. fold t0 in PX0. rewrite <- X1 in PX0.
  assert (EN : Z.to_nat (p_hres p * p_vres p) = (F * m)%nat) by (rewrite HF, Nat2Z.id; reflexivity).
  rewrite EN in PX, PX0. replace (Z.to_nat (Z.of_nat f - 1 + 1)) with f in PX by lia.
  pose proof (F_ge k Hk) as F2. fold F in F2.
  assert (NS : leaves_no_short_group i F t0 t1).
  { split; [exact FB0|]. rewrite PX0, map_length, seq_length. rewrite Nat.mul_comm, Nat.mod_mul by lia. lia. }
  pose proof (C22_sof_partial k Hk i t0 t1 t2 NS FB) as SOF. fold F in SOF.
  destruct (C21_words_are_pixels_partial k Hk i t1 t2 FB) as (rest & RL & CE & WL). fold F in RL, CE, WL.
  destruct FB as (LT & _ & _).
  assert (EC : collect (word_out F i) (t1 + 1) (t2 - t1) = collect (word_out F i) (t1 + 2) (t2 - t1 - 1)).
  { replace (t2 - t1)%nat with (1 + (t2 - t1 - 1))%nat at 1 by lia. rewrite collect_app.
    cbn [collect]. rewrite Nat.add_0_r. replace (t1 + 1 + 1)%nat with (t1 + 2)%nat by lia.
    destruct (word_out F i (t1 + 1)) as [[b l]|] eqn:E; [|reflexivity].
    destruct (SOF (t1 + 1)%nat b l ltac:(lia) E). lia. }
  rewrite EC. rewrite PX in CE.
  assert (WL' : forall l, In l (map (fun x => rev (snd x)) (collect (word_out F i) (t1 + 2) (t2 - t1 - 1))) -> length l = F).
  { intros l Hl'. apply in_map_iff in Hl' as (x & <- & Hx). rewrite rev_length. apply WL. exact Hx. }
  destruct (concat_groups F _ (fun q => px (f * (F * m) + q)%nat) rest m ltac:(lia) WL' RL 0%nat CE) as [EL _].
  set (C := collect (word_out F i) (t1 + 2) (t2 - t1 - 1)) in *.
  assert (LC : length C = m) by (rewrite <- (map_length (fun x => rev (snd x)) C), EL, map_length, seq_length; reflexivity).
  assert (TG : map fst C = map (fun j => Nat.eqb j 0) (seq 0 m)).
  { rewrite <- LC. unfold C. apply collect_tags. intros t b l Ht E. destruct (SOF t b l ltac:(lia) E) as [-> _].
    replace (t - (t1 + 2))%nat with (t - t1 - 2)%nat by lia. reflexivity. }
  assert (SN : map snd C = map (fun j => rev (map (fun q => px (f * (F * m) + q)%nat) (seq (F * j) F))) (seq 0 m)).
  { transitivity (map (@rev Z) (map (fun x => rev (snd x)) C)).
    - rewrite map_map. apply map_ext. intros x. symmetry. apply rev_involutive.
    - rewrite EL, map_map. reflexivity. }
  clearbody C. revert TG SN. generalize (seq 0 m) as js. clear. induction C as [|[b l] C IH]; intros [|j js] A B; try discriminate; [reflexivity|].
  cbn [map fst snd] in *. injection A as -> A. injection B as -> B. rewrite (IH js A B). reflexivity.
Qed.

(** The receiver's packer input in rgb mode. *)
Lemma frame_words : forall p, link_ok p -> forall w s0 raw D g, 0 <= g ->
  (forall n, (clk p g 0 (p_hres p) <= n)%nat ->
   let o := rx_sp (rx_run s0 raw (n + D)) in
   sp_valid o = true /\ sp_de o = tx_de p n /\ sp_hsync o = tx_hs p n /\ sp_vsync o = tx_vs p n /\
   (tx_de p n = true ->
    let d := w (pixels_before p (n - 1)) in sp_r o = slice 0 8 d /\ sp_g o = slice 8 8 d /\ sp_b o = slice 16 8 d)) ->
  forall k m, (1 <= k)%nat -> let F := (2 ^ k)%nat in p_hres p * p_vres p = Z.of_nat (F * m) ->
  forall f t1 t2, g + 2 <= Z.of_nat f ->
  let vsync_of g := 1 + (g * (p_vscan p + 1) + p_vs_start p) * (p_hscan p + 1) in
  Z.of_nat t1 = vsync_of (Z.of_nat f - 1) + Z.of_nat D -> Z.of_nat t2 = vsync_of (Z.of_nat f) + Z.of_nat D ->
  collect (word_out F (pk_stream s0 raw)) (t1 + 1) (t2 - t1) =
  map (fun j => (Nat.eqb j 0, rev (map (fun q => stored (w (f * (F * m) + q)%nat)) (seq (F * j) F)))) (seq 0 m).
Proof.
  intros p lk w s0 raw D g Hg P.
  apply (packed_words p lk (pk_stream s0 raw) D 0%nat ltac:(lia) (fun q => stored (w q)) g Hg).
  - intros n Hn. destruct (P n Hn) as (_ & _ & _ & A & _). exact A.
  - intros n Hn. rewrite Nat.add_0_r. destruct (P n Hn) as (A & B & _ & _ & C). unfold pixel_in, pk_stream, rx_pk_in.
    cbn [pki_we pki_px]. rewrite A, B. cbn [andb]. destruct (tx_de p n) eqn:E; [|reflexivity].
    destruct (C eq_refl) as (R & G & Bl). unfold stored, rgb_pixel. rewrite R, G, Bl. reflexivity.
Qed.

(** C72.  From the fifth frame on, the words pushed by the frame capture between
    two starts of vsync are the words of one transmitted frame: [F] pixels per
    word, first pixel in the most significant lane, the first word of the frame
    and no other tagged as its start. *)
Theorem C72_frame_over_link :
  forall p : fparam,
  params_ok p -> 24 <= p_hres p -> p_hres p + 30 <= p_hscan p + 1 -> 1 <= p_vres p <= p_vscan p ->
  p_hres p < p_hs_start p -> p_vres p <= p_vs_start p < p_vs_end p ->
  forall w L Lmin raw s0, link (tx_stream p w) L Lmin raw s0 ->
  forall k m, (1 <= k)%nat -> let F := (2 ^ k)%nat in p_hres p * p_vres p = Z.of_nat (F * m) ->
  exists D, (forall k, (k < 3)%nat -> (L k / 10 + 7 < D <= L k / 10 + 15)%nat) /\
  forall f t1 t2, (4 <= f)%nat ->
  let vsync_of g := 1 + (g * (p_vscan p + 1) + p_vs_start p) * (p_hscan p + 1) in
  Z.of_nat t1 = vsync_of (Z.of_nat f - 1) + Z.of_nat D -> Z.of_nat t2 = vsync_of (Z.of_nat f) + Z.of_nat D ->
  collect (word_out F (pk_stream s0 raw)) (t1 + 1) (t2 - t1) =
  map (fun j => (Nat.eqb j 0, rev (map (fun q => stored (w (f * (F * m) + q)%nat)) (seq (F * j) F)))) (seq 0 m).
Proof.
  intros p ok H1 H2 H3 H4 H5 w L Lmin raw s0 Hl k m Hk F HF.
  assert (lk : link_ok p) by (constructor; assumption).
  destruct (link_tx p lk w L Lmin raw s0 Hl) as (D & B & P). exists D. split; [exact B|].
  intros f t1 t2 Hf. apply (frame_words p lk w s0 raw D 2 ltac:(lia) P k m Hk HF). lia.
Qed.
Print Assumptions C72_frame_over_link.

(** The hypotheses are met by a small mode and any frame buffer contents. *)
Definition ex_mode : fparam :=
  {| p_hres := 24; p_hs_start := 30; p_hs_end := 40; p_hscan := 55; p_vres := 2; p_vs_start := 3; p_vs_end := 4; p_vscan := 4 |}.
Example ex_mode_ok : params_ok ex_mode /\ 24 <= p_hres ex_mode /\ p_hres ex_mode + 30 <= p_hscan ex_mode + 1 /\
  1 <= p_vres ex_mode <= p_vscan ex_mode /\ p_hres ex_mode < p_hs_start ex_mode /\
  p_vres ex_mode <= p_vs_start ex_mode < p_vs_end ex_mode /\ p_hres ex_mode * p_vres ex_mode = Z.of_nat (2 ^ 2 * 12).
Proof. split; [constructor; cbn; lia|]. cbn. lia. Qed.
Example ex_link_ok : forall w,
  link (tx_stream ex_mode w) ex_L 0 (fun n k => delayed (tx_word (tx_stream ex_mode w) k) (ex_L k) n) rx_init.
Proof.
  intros w. split; [intros [|[|[|k]]] Hk; cbn; lia|]. split.
  - intros k Hk. apply delayed_ok.
  - intros k Hk. apply ex_hyp. exact Hk.
Qed.
