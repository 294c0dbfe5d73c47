(** C145: the pictures of an HDMI source in memory in ycbcr422 mode, the default of HDMIIn, one after the other. *)
From Coq Require Import ZArith List Bool Lia Arith.
From Verif Require Import Hdl Trace CdcProofs TmdsSpec CharSyncProps ChanSyncModel HdmiProps AnalysisModel HdmiModel HdmiProofs HdmiRxModel HdmiRxProps FrameProofs FrameProps LinkModel LinkProps
  HdmiSrcSpec HdmiSrcProofs HdmiSrcProps InDmaModel InDmaProofs InDmaProps FifoModel FifoProofs FifoProps
  CaptureModel CaptureProofs CaptureProps CaptureRateProofs CaptureLiveProofs CaptureLiveProps CscModel CscSpec ChromaProofs YccPathModel YccPathProps YccLinkModel YccLinkProps HdmiSlotProps HdmiSlotYccProps FairProofs FairProps PictureOrderProps PictureSkipProps PictureFlowProps DriverProps HdmiVideoProps.
Import ListNotations.
Open Scope nat_scope.

(** C143 in ycbcr422 mode, with the source of C138: lines of pairs of pixels, 16 bits a pixel.  Every capture puts one picture of the source
    into a slot, a later one than all captures before, and is finished at most [B + 3 * E + 2 * K + 11] sys clocks after the last pixel [p]
    of the picture has passed the receiver, the colour conversion (eleven clocks) and the packer.  If software always has another slot
    loaded when one is filled, there is an [N]-th next capture for every [N] and at least every second picture is stored; and every
    picture is, if from that moment to the next rise of vsync at the packer there are more sys clocks than that. *)
Theorem C145_hdmi_video_422 : forall Q W, hdmi_source Q W -> forall L raw, wired W L raw ->
  forall s0, rx_ok (rh_rx s0) -> one_deep s0 -> forall a0 b1 b2, lock_sequence Q a0 b1 b2 ->
  exists E0, (forall k, k < 3 -> L k / 10 + 6 < E0 <= L k / 10 + 14) /\
  forall hs vs ph pv, sync_coded Q hs vs ph pv -> quiet_after_line Q hs vs ->
  forall l, b2 + 20 <= l -> line_ends Q l = true -> paired_lines Q l ->
  forall k m r, 1 <= k -> 1 <= m -> let F := 2 ^ k in hdmi_frames Q vs (F * m) r -> quiet_before Q r -> l + 11 <= r 0 ->
  forall n aw align mem ra ns (i : nat -> cap_in), let dw := (16 * Z.of_nat F)%Z in
  (1 <= n)%Z -> Z.of_nat (length mem) = (2 ^ n)%Z -> (0 < aw)%Z -> 1 <= ns ->
  let x_in := hdmi_ycc_stream F s0 raw in
  let pix := occurrences (fun t => cap_pix (i t)) 0 in
  let sys u t := occurrences (fun t => cap_sys (i t)) u (t - u) in
  (forall t, cap_pix (i t) = true -> cap_pk (i t) = x_in (pix t)) ->
  forall K E B,
  runs_bounded (fun t => cap_sys (i t)) (fun t => negb (cap_mready (i t))) K ->
  runs_bounded (fun t => cap_sys (i t))
    (fun t => cap_wbusy (i t) && match c_write n F 16 aw dw align mem ra (dma_init ns) i t with None => true | Some _ => false end) E ->
  slow_enough F x_in (fun t => cap_pix (i t)) (fun t => cap_sys (i t)) K E B ->
  B + E + K + 5 < (K + 1) * (2 ^ Z.to_nat n - 2) ->
  keeps_running (fun t => cap_sys (i t)) -> keeps_running (fun t => cap_pix (i t)) ->
  forall T0, pix T0 = r 1 + E0 + 2 ->
  (forall t, T0 <= t -> Z.of_nat m = size_words aw align (cap_size (i t))) ->
  let loaded t c := Z.odd (slot_status n F 16 aw dw align mem ra ns i t c) = true in
  (forall t j, cap_sys (i t) = true -> loaded t j -> match cap_sw (i t) with SwNone => True | SwStatus k _ => k <> j | SwAddr k _ => k <> j end) ->
  let starts := c_starts n F 16 aw dw align mem ra (dma_init ns) i in
  let settled t := T0 <= t /\ B + 2 * (E + K) + 10 <= sys T0 t in
  let last f p := is_pix (Q p) = true /\ r f <= p < r (S f) /\ forall t, p < t < r (S f) -> is_pix (Q t) = false in
  exists fr : nat -> nat,
  (forall u c, dma_idle n F 16 aw dw align mem ra ns i u -> c < ns -> loaded u c -> exists x0, next_start n F 16 aw dw align mem ra ns i u x0 /\
   (settled u -> forall v g, 1 <= g -> 1 <= sys u v -> pix v <= r g + E0 + 2 -> fr x0 <= g)) /\
  (forall x, settled x -> starts x = true ->
   exists z c, length (picture_422 Q r (fr x)) = F * m /\ shows n F 16 aw dw align mem ra ns i m (picture_422 Q r (fr x)) x z c /\
   (forall x2, x < x2 -> starts x2 = true -> z <= x2 /\ fr x < fr x2) /\
   forall p u, last (fr x) p -> p + E0 + 13 <= pix u -> sys u z <= B + 3 * E + 2 * K + 11) /\
  (forall x0, relayed n F 16 aw dw align mem ra ns i m (fun x => x0 <= x) ->
   settled x0 -> starts x0 = true ->
   forall N, exists x, x0 <= x /\ starts x = true /\ occurrences starts (S x0) (x - x0) = N /\ fr x0 + N <= fr x <= fr x0 + 2 * N /\
   ((forall f, 1 <= f -> exists p u, last f p /\ pix u = p + E0 + 13 /\
      forall w, r (S f) + E0 + 2 < pix w -> B + 3 * E + 2 * K + 11 < sys u w) -> fr x = fr x0 + N)).
Proof.
  intros Q W HQ L raw HW s0 OK OD a0 b1 b2 LK.
  destruct (C131_hdmi_source Q W HQ L raw HW s0 OK OD a0 b1 b2 LK) as (E0 & BE & DL & SY).
  exists E0. split; [exact BE|]. intros hs vs ph pv SC QU l HL LE PL k m r K1 M1 F HFR QB HR0 n aw align mem ra ns i dw N HM Haw NS x_in pix sys HX
    K E B H1 H2 H3 HD Hsys Hpix T0 HT SZ loaded POL starts settled last.
  pose proof (SY hs vs ph pv SC QU l HL LE) as DS.
  assert (DL' : delivers Q (rh_out s0 raw hdmi_mode) E0 l) by (intros t T; apply DL; lia).
  assert (NP : is_pix (Q l) = false). { unfold line_ends in LE. apply andb_true_iff in LE as [_ X]. apply negb_true_iff, X. }
  assert (RM : forall f, r 0 <= r f) by (induction f as [|f IH]; [lia|destruct (HFR f); lia]).
  assert (RV : forall x, l < x -> rises (fun t => pki_vsync (x_in t)) (x + E0) = vs_rises (seen_vs Q vs) x).
  { intros x X. unfold rises, vs_rises, seen_vs. replace (x + E0) with (S (x - 1 + E0)) by lia. rewrite andb_comm.
    change (pki_vsync (x_in (x - 1 + E0))) with (sp_vsync (rh_out s0 raw hdmi_mode (x - 1 + E0))). replace (S (x - 1 + E0)) with (x + E0) by lia.
    change (pki_vsync (x_in (x + E0))) with (sp_vsync (rh_out s0 raw hdmi_mode (x + E0))).
    rewrite (proj2 (DS x ltac:(lia))), (proj2 (DS (x - 1) ltac:(lia))). reflexivity. }
  assert (FB : forall f, frame_between x_in (r f + E0) (r (S f) + E0)).
  { intros f. destruct (HFR f) as (A1 & A2 & A3 & _). pose proof (RM f). split; [lia|]. split; [rewrite RV by lia; exact A2|].
    intros t T. replace t with (t - E0 + E0) by lia. rewrite RV by lia. apply A3. lia. }
  assert (SN : forall j, is_pix (Q j) = false -> stored_slot_422 Q j = None) by (intros j J; unfold stored_slot_422; rewrite J; reflexivity).
  assert (PLn : forall f, length (picture_422 Q r f) = F * m).
  { intros f. destruct (HFR f) as (_ & _ & _ & A4). rewrite <- A4. unfold picture_422. rewrite collect_length. apply occurrences_ext.
    intros t _. unfold stored_slot_422. destruct (is_pix (Q t)); reflexivity. }
  assert (F0 : F <> 0) by (apply Nat.pow_nonzero; lia).
  assert (GP : forall f, 11 <= r (S f) - r f - 1).
  { intros f. destruct (Nat.le_gt_cases 11 (r (S f) - r f - 1)) as [H|H]; [exact H|]. exfalso.
    pose proof (PLn f) as X. unfold picture_422 in X. rewrite (collect_nil _ (stored_slot_422 Q)) in X; [cbn [length] in X; nia|].
    intros j J. apply SN, (QB (S f)); destruct (HFR f); lia. }
  assert (PX : forall f, collect (pixel_in x_in) (r f + E0 + 1) (r (S f) + E0 - (r f + E0) - 1) = picture_422 Q r f).
  { intros f. pose proof (RM f). pose proof (GP f). destruct (HFR f) as (A1 & _). unfold picture_422.
    rewrite <- (collect_moved _ (stored_slot_422 Q) 11 (r f + 1)); try lia.
    - replace (r (S f) + E0 - (r f + E0) - 1) with (r (S f) - r f - 1) by lia.
      replace (r f + E0 + 1) with (r f + 1 - 11 + (E0 + 11)) by lia. rewrite (collect_shift _ (pixel_in x_in) (E0 + 11) (r f + 1 - 11)).
      apply collect_ext. intros t T. destruct (Nat.eq_dec t l) as [-> | NE].
      + exfalso. lia.
      + apply (hdmi_ycc_px Q W HQ s0 raw E0 l F DL' NP PL). lia.
    - intros j J. apply SN, (QB f); lia.
    - intros j J. apply SN, (QB (S f)); lia. }
  set (words := fun f j => rev (map (fun q => nth q (picture_422 Q r (f + 1)) 0%Z) (seq (F * j) F))).
  set (b := fun f => r (f + 1) + E0 + 2).
  assert (HB : forall f, b f <= b (S f) /\ collect (word_out F x_in) (b f) (b (S f) - b f) = map (fun j => (Nat.eqb j 0, words f j)) (seq 0 m)).
  { intros f. unfold b. replace (S f + 1) with (S (f + 1)) by lia. destruct (HFR (f + 1)) as (A1 & _). split; [lia|].
    pose proof (frame_of_words k K1 x_in (r f + E0) (r (S f) + E0) (r (S (S f)) + E0) (r (S (S (S f))) + E0) m (FB f) (FB (S f)) (FB (S (S f)))) as X.
    rewrite !PX, !PLn in X. fold F in X. replace (f + 1) with (S f) in * by lia.
    replace (r (S (S f)) + E0 + 2 - (r (S f) + E0 + 2)) with (r (S (S f)) + E0 - (r (S f) + E0)) by lia.
    rewrite X; [|rewrite Nat.mul_comm; apply Nat.mod_mul; exact F0|reflexivity]. unfold words. rewrite Nat.add_1_r. reflexivity. }
  assert (LAST : forall f p, last (f + 1) p -> length (collect (word_out F x_in) (b f) (p - r (f + 1) + 11)) = m).
  { intros f p (P0 & P1 & P2). unfold b. pose proof (RM (f + 1)). replace (f + 1) with (S f) in * by lia. replace (p - r (S f) + 11) with (p + E0 + 11 - (r (S f) + E0)) by lia.
    assert (PQ : p + 11 < r (S (S f))).
    { destruct (Nat.lt_ge_cases (p + 11) (r (S (S f)))) as [G|G]; [exact G|exfalso]. rewrite (QB (S (S f)) p) in P0 by lia. discriminate. }
    apply (words_by k K1 x_in (r f + E0) (r (S f) + E0) (r (S (S f)) + E0) (r (S (S (S f))) + E0) m (p + E0 + 11) (FB f) (FB (S f)) (FB (S (S f)))).
    - rewrite PX, PLn. rewrite Nat.mul_comm. apply Nat.mod_mul. exact F0.
    - rewrite PX. apply PLn.
    - lia.
    - intros t T. pose proof (hdmi_ycc_px Q W HQ s0 raw E0 l F DL' NP PL (t - E0 - 11) ltac:(lia)) as G. replace (t - E0 - 11 + (E0 + 11)) with t in G by lia.
      rewrite SN in G by (apply P2; lia). unfold pixel_in in G. destruct (pki_we (x_in t)) eqn:WE; [|reflexivity].
      change (hdmi_ycc_stream F s0 raw) with x_in in G. rewrite WE in G. discriminate. }
  assert (SM : streaming n F 16 aw dw align mem ra ns i x_in K E B b m words T0).
  { constructor; try assumption. }
  destruct (flow n F 16 aw dw align mem ra ns i x_in K E B b m words T0 SM) as (fr & FIRST & P & R).
  exists (fun x => fr x + 1). split; [|split].
  { intros u c ID CN LC. destruct (idle_starts n F 16 aw dw align mem ra ns i x_in K E B b m words T0 SM u c ID CN LC) as (x & NX). exists x. split; [exact NX|].
    intros SU v g G1 OV PV. pose proof (FIRST u c x SU ID CN LC NX v (g - 1) OV) as H. unfold b in H. replace (g - 1 + 1) with g in H by lia. specialize (H PV). lia. }
  - intros x SX ST. destruct (P x SX ST) as (z & c & FI & ORD & LAT). exists z, c. split; [apply PLn|]. split.
    { apply (fills_shows n F 16 aw align mem ra ns i m words x z c (fr x) (picture_422 Q r (fr x + 1)) ltac:(lia) F0); [|reflexivity|exact FI].
      intros q. destruct (nth_in_or_default q (picture_422 Q r (fr x + 1)) 0%Z) as [I| ->]; [exact (collect_all Z (fun v => (0 <= v < 2 ^ 16)%Z) _ _ _ (stored_slot_422_range Q) _ I)|]. split; [lia|reflexivity]. }
    split; [intros x2 X2 S2; destruct (ORD x2 X2 S2); split; lia|].
    intros p u LP PU. apply (LAT u (p - r (fr x + 1) + 11)); [|apply LAST; exact LP]. destruct LP as (_ & LP & _). change (b (fr x) + (p - r (fr x + 1) + 11) <= pix u). unfold b. lia.
  - intros x0 QUICK S0 ST0 n0. destruct (R x0 QUICK S0 ST0 n0) as (x & I1 & I2 & I3 & I4 & I5). exists x.
    split; [exact I1|]. split; [exact I2|]. split; [exact I3|]. split; [lia|]. intros GAP. rewrite I5; [lia|].
    intros f. destruct (GAP (f + 1) ltac:(lia)) as (p & u & LP & PU & G). exists u, (p - r (f + 1) + 11). pose proof LP as (_ & LP1 & _).
    split; [change (pix u = b f + (p - r (f + 1) + 11)); unfold b; lia|]. split; [apply LAST; exact LP|].
    intros w HW'. apply G. unfold b in HW'. replace (f + 1 + 1) with (S (f + 1)) in HW' by lia. exact HW'.
Qed.
Print Assumptions C145_hdmi_video_422.


(** ** A case: the source of HdmiSlotYccProps.v, two slots and the driver of DriverProps.v from instant 6000 on *)
Definition hy_in : nat -> cap_in := driven 4 (2 ^ 1) 16 8 (16 * Z.of_nat (2 ^ 1)) 2 hd_mem 0 (60 * 100) ex_slot_in16.
Lemma hy_sys : forall a k, occurrences (fun t => cap_sys (hy_in t)) a k = k.
Proof. intros a k. change (fun t => cap_sys (hy_in t)) with (fun _ : nat => true). apply fl_occ. Qed.
Lemma hy_pix : forall k, occurrences (fun t => cap_pix (hy_in t)) 0 (4 * k) = k.
Proof.
  intros k. change (fun t => cap_pix (hy_in t)) with (fun t => cap_pix (ex_live_in t)). pose proof (ex_live_pix 0 (4 * k)) as Q.
  change ((0 + 3) mod 4) with 3 in Q. replace (0 + 4 * k + 3) with (3 + k * 4) in Q by lia. rewrite Nat.mod_add in Q by lia. change (3 mod 4) with 3 in Q. lia.
Qed.
Lemma hy_pix_le : forall k w, k < occurrences (fun t => cap_pix (hy_in t)) 0 w -> 4 * k < w.
Proof.
  intros k w H. destruct (Nat.lt_ge_cases (4 * k) w) as [L|L]; [exact L|exfalso]. pose proof (hy_pix k) as Q.
  replace (4 * k) with (w + (4 * k - w)) in Q by lia. rewrite occ_app in Q. lia.
Qed.
Example hy_last : forall f, is_pix (ex_src (ex_r f + 476)) = true /\ ex_r f <= ex_r f + 476 < ex_r (S f) /\ forall t, ex_r f + 476 < t < ex_r (S f) -> is_pix (ex_src t) = false.
Proof.
  intros f. split; [|exact (hd_last f)]. unfold ex_r. replace (552 * f + 423 + 476) with (552 * f + 899) by lia. rewrite ex_src_per. vm_compute. reflexivity.
Qed.
Example ex_hdmi_video_422 : exists f0, forall f, f0 <= f -> exists x z c, 60 * 100 < x /\
  shows 4 2 16 8 32 2 hd_mem 0 2 hy_in 45 (picture_422 ex_src ex_r f) x z c.
Proof.
  destruct ex_source as (S1 & S2 & S3 & S4 & S5 & S6 & S7 & _ & S9).
  destruct (C145_hdmi_video_422 ex_src ex_W S1 ex_L ex_hraw2 S5 rh_init S6 S7 1 40 72 S4) as (E0 & HE & X).
  assert (EB : E0 <= 20). { specialize (HE 0 ltac:(lia)). assert (ex_L 0 / 10 <= 6) by (apply Nat.leb_le; vm_compute; reflexivity). lia. }
  destruct (X ex_hs HdmiSrcProps.ex_vs true false S2 S3 210) with (k := 1) (m := 45) (r := ex_r) (n := 4%Z) (aw := 8%Z) (align := 2%Z) (mem := hd_mem)
    (ra := 0%Z) (ns := 2) (i := hy_in) (K := 1) (E := 0) (B := 6) (T0 := 4 * (ex_r 1 + E0 + 2)) as (fr & ID & P & R).
  - lia.
  - exact S9.
  - apply ex_paired.
  - lia.
  - lia.
  - exact ex_frames.
  - exact ex_quiet.
  - unfold ex_r. lia.
  - lia.
  - reflexivity.
  - lia.
  - lia.
  - intros t H. change (cap_pix (ex_live_in t) = true) in H. pose proof (ex_live_pix 0 t) as Q. rewrite (CaptureLiveProps.ex_mod (0 + t)) in Q. cbn [Nat.add] in Q.
    cbn [cap_pix ex_live_in] in H. rewrite H in Q. apply Nat.eqb_eq in H. pose proof (Nat.div_mod t 4 ltac:(lia)) as D.
    change (cap_pk (hy_in t)) with (cap_pk (ex_slot_in16 t)). change (fun t => cap_pix (hy_in t)) with (fun t => cap_pix (ex_live_in t)).
    cbn [cap_pk ex_slot_in16]. change (2 ^ 1) with 2. f_equal. change (3 mod 4) with 3 in Q. lia.
  - exact ex_live_mem.
  - intros u t UT H. rewrite hy_sys. destruct (Nat.le_gt_cases (t - u) 0) as [L|L]; [exact L|]. exfalso. specialize (H u ltac:(lia) eq_refl). discriminate.
  - change 6 with (4 / 2 ^ 1 + (1 + 0 + 3)). apply clocks_slow_enough; [lia|]. intros a b _. rewrite hy_sys.
    change (fun t => cap_pix (hy_in t)) with (fun t => cap_pix (ex_live_in t)).
    pose proof (ex_live_pix a (b - a)) as QP. pose proof (Nat.mod_upper_bound (a + 3) 4 ltac:(lia)). change (2 ^ 1) with 2. lia.
  - apply Nat.ltb_lt; vm_compute; reflexivity.
  - exact (proj1 ex_live_running).
  - exact (proj2 ex_live_running).
  - apply hy_pix.
  - intros t _. vm_compute. reflexivity.
  - intros t j. apply drv_polite.
  - destruct (drv_begins 4 (2 ^ 1) 16 8 (16 * Z.of_nat (2 ^ 1)) 2 hd_mem 0 (60 * 100) ex_slot_in16 (60 * 100) ltac:(lia) ltac:(intros; lia) eq_refl) as [A1 A2].
    destruct (ID (S (60 * 100)) 0 A1 ltac:(lia) A2) as (x0 & (X1 & X2 & _) & _).
    assert (SX : forall x, x0 <= x -> 4 * (ex_r 1 + E0 + 2) <= x /\ 6 + 2 * (0 + 1) + 10 <= occurrences (fun t => cap_sys (hy_in t)) (4 * (ex_r 1 + E0 + 2)) (x - 4 * (ex_r 1 + E0 + 2))).
    { intros x L. rewrite hy_sys. unfold ex_r. lia. }
    exists (fr x0). intros f FF.
    destruct (R) with (x0 := x0) (N := f - fr x0) as (x & I1 & I2 & _ & _ & I5).
    + apply quick_relayed. intros t c C L _. exact (drv_quick 4 (2 ^ 1) 16 8 (16 * Z.of_nat (2 ^ 1)) 2 hd_mem 0 (60 * 100) ex_slot_in16 t c C L).
    + apply SX. lia.
    + exact X2.
    + destruct (P x (SX x I1) I2) as (z & c & _ & SH & _). exists x, z, c. split; [lia|].
      rewrite I5 in SH; [replace (fr x0 + (f - fr x0)) with f in SH by lia; exact SH|].
      intros g _. exists (ex_r g + 476), (4 * (ex_r g + 476 + E0 + 13)). split; [apply hy_last|]. split; [apply hy_pix|].
      intros w W. apply hy_pix_le in W. rewrite hy_sys. unfold ex_r in *. lia.
Qed.
