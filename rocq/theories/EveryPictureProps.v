(** C148: every picture of an HDMI source is stored. *)
From Coq Require Import ZArith List Bool Lia Arith.
From Verif Require Import Hdl Trace CdcProofs TmdsSpec CharSyncProps ChanSyncModel HdmiProps AnalysisModel HdmiModel HdmiProofs HdmiRxModel HdmiRxProps FrameProofs FrameProps LinkModel LinkProps
  HdmiSrcSpec HdmiSrcProofs HdmiSrcProps InDmaModel InDmaProofs InDmaProps FifoModel FifoProofs FifoProps
  CaptureModel CaptureProofs CaptureProps CaptureRateProofs CaptureLiveProofs CaptureLiveProps CscModel CscSpec ChromaProofs YccPathModel YccPathProps YccLinkModel YccLinkProps HdmiSlotProps HdmiSlotYccProps FairProofs FairProps PictureOrderProps PictureSkipProps PictureFlowProps DriverProps HdmiVideoProps HdmiVideoYccProps EagerProps.
Import ListNotations.
Open Scope nat_scope.

(** Source, receiver, memory and eager software together (C143, C147), two slots or more: every picture of the source that begins to leave the
    receiver after the second sys clock from [Tq] on is put into a slot, and the slot is marked at most [B + 3 * E + 2 * K + 11] sys clocks after the picture's last pixel has left the receiver, provided
    that from the last pixel of each picture to the next vsync there are more sys clocks than that. *)
Theorem C148_every_picture : forall Q W, hdmi_source Q W -> forall L raw, wired W L raw ->
  forall s0, rx_ok (rh_rx s0) -> one_deep s0 -> forall a0 b1 b2, lock_sequence Q a0 b1 b2 ->
  exists E0, (forall k, k < 3 -> L k / 10 + 6 < E0 <= L k / 10 + 14) /\
  forall hs vs ph pv, sync_coded Q hs vs ph pv -> quiet_after_line Q hs vs ->
  forall l, b2 + 20 <= l -> line_ends Q l = true ->
  forall k m r, 1 <= k -> 1 <= m -> let F := 2 ^ k in hdmi_frames Q vs (F * m) r -> l < r 0 ->
  forall n aw align mem ra ns (i : nat -> cap_in), let dw := (32 * Z.of_nat F)%Z in
  (1 <= n)%Z -> Z.of_nat (length mem) = (2 ^ n)%Z -> (0 < aw)%Z -> 2 <= ns ->
  let x_in t := rx_pk_in (rh_rx (rh_run s0 raw hdmi_mode t)) in
  let pix := occurrences (fun t => cap_pix (i t)) 0 in
  let sys u t := occurrences (fun t => cap_sys (i t)) u (t - u) in
  (forall t, cap_pix (i t) = true -> cap_pk (i t) = x_in (pix t)) ->
  forall K E B,
  runs_bounded (fun t => cap_sys (i t)) (fun t => negb (cap_mready (i t))) K ->
  runs_bounded (fun t => cap_sys (i t))
    (fun t => cap_wbusy (i t) && match c_write n F 32 aw dw align mem ra (dma_init ns) i t with None => true | Some _ => false end) E ->
  slow_enough F x_in (fun t => cap_pix (i t)) (fun t => cap_sys (i t)) K E B ->
  B + E + K + 5 < (K + 1) * (2 ^ Z.to_nat n - 2) ->
  keeps_running (fun t => cap_sys (i t)) -> keeps_running (fun t => cap_pix (i t)) ->
  forall T0, pix T0 = r 1 + E0 + 2 ->
  (forall t, T0 <= t -> Z.of_nat m = size_words aw align (cap_size (i t))) ->
  let loaded t c := Z.odd (slot_status n F 32 aw dw align mem ra ns i t c) = true in
  (forall t j, cap_sys (i t) = true -> loaded t j -> match cap_sw (i t) with SwNone => True | SwStatus k _ => k <> j | SwAddr k _ => k <> j end) ->
  let last f p := r f <= p < r (S f) /\ forall t, p < t < r (S f) -> is_pix (Q t) = false in
  forall Tq, eager n F 32 aw dw align mem ra ns i Tq -> T0 <= Tq -> B + 2 * (E + K) + 10 <= sys T0 Tq ->
  (forall f, 1 <= f -> exists p u, last f p /\ pix u = p + E0 + 2 /\ forall w, r (S f) + E0 + 2 < pix w -> B + 3 * E + 2 * K + 11 < sys u w) ->
  forall f v, 1 <= f -> 2 <= sys Tq v -> pix v <= r f + E0 + 2 -> exists x z c, Tq < x /\ length (picture Q r f) = F * m /\ shows n F 32 aw dw align mem ra ns i m (picture Q r f) x z c /\
  forall p u, last f p -> p + E0 + 2 <= pix u -> sys u z <= B + 3 * E + 2 * K + 11.
Proof.
  intros Q W HQ L raw HW s0 OK OD a0 b1 b2 LK.
  destruct (C143_hdmi_video Q W HQ L raw HW s0 OK OD a0 b1 b2 LK) as (E0 & BE & V). exists E0. split; [exact BE|].
  intros hs vs ph pv SC QU l HL LE k m r K1 M1 F HFR HR0 n aw align mem ra ns i dw N HM Haw NS x_in pix sys HX
    K E B H1 H2 H3 HD Hsys Hpix T0 HT SZ loaded POL last Tq EG TQ SQ GAP f v F1 OV PV.
  destruct (V hs vs ph pv SC QU l HL LE k m r K1 M1 HFR HR0 n aw align mem ra ns i N HM Haw ltac:(lia) HX K E B H1 H2 H3 HD Hsys Hpix T0 HT SZ POL)
    as (fr & ID & P & R).
  destruct (Hsys Tq 1) as (t1 & T1 & O1).
  destruct (first_in (fun t => cap_sys (i t)) Tq (t1 - Tq)) as [G | (w & W1 & QW & NW)].
  { rewrite occ_zero in O1; [lia|exact G]. }
  destruct (eg_begins n F 32 aw dw align mem ra ns i Tq NS EG w ltac:(lia) NW QW) as [A1 (c0 & C0 & A2)].
  destruct (ID (S w) c0 A1 C0 A2) as (x0 & (X1 & X2 & X3) & FST).
  assert (SX : forall x, x0 <= x -> T0 <= x /\ B + 2 * (E + K) + 10 <= sys T0 x).
  { intros x LX. split; [lia|]. unfold sys in *. replace (x - T0) with ((Tq - T0) + (x - Tq)) by lia. rewrite occ_app. lia. }
  assert (FF : fr x0 <= f).
  { apply (FST) with (v := v); [|exact F1|apply (occ_second (fun t => cap_sys (i t)) Tq w v); (lia || assumption)|exact PV].
    split; [lia|]. unfold sys in *. replace (S w - T0) with ((Tq - T0) + (S w - Tq)) by lia. rewrite occ_app. lia. }
  destruct (R) with (x0 := x0) (N := f - fr x0) as (x & I1 & I2 & I3 & I4 & I5).
  - apply quick_relayed. intros t c C L0 _. destruct (Nat.le_gt_cases Tq t) as [T|T].
    + exact (eg_quick n F 32 aw dw align mem ra ns i Tq NS EG POL t c T C L0).
    + destruct (idle_at_first n F 32 aw dw align mem ra ns i t) as [_ Z0]; [intros u j vv U; apply (eg_before _ _ _ _ _ _ _ _ _ _ _ EG); lia|].
      rewrite Z0 in L0. discriminate.
  - apply SX. lia.
  - exact X2.
  - destruct (P x (SX x I1) I2) as (z & c & PL' & SH & _ & LAT). assert (FX : fr x = f) by (rewrite (I5 GAP); lia). rewrite FX in *.
    exists x, z, c. split; [lia|]. split; [exact PL'|]. split; [exact SH|exact LAT].
Qed.
Print Assumptions C148_every_picture.

(** The same in ycbcr422 mode (C145). *)
Theorem C148_every_picture_422 : forall Q W, hdmi_source Q W -> forall L raw, wired W L raw ->
  forall s0, rx_ok (rh_rx s0) -> one_deep s0 -> forall a0 b1 b2, lock_sequence Q a0 b1 b2 ->
  exists E0, (forall k, k < 3 -> L k / 10 + 6 < E0 <= L k / 10 + 14) /\
  forall hs vs ph pv, sync_coded Q hs vs ph pv -> quiet_after_line Q hs vs ->
  forall l, b2 + 20 <= l -> line_ends Q l = true -> paired_lines Q l ->
  forall k m r, 1 <= k -> 1 <= m -> let F := 2 ^ k in hdmi_frames Q vs (F * m) r -> quiet_before Q r -> l + 11 <= r 0 ->
  forall n aw align mem ra ns (i : nat -> cap_in), let dw := (16 * Z.of_nat F)%Z in
  (1 <= n)%Z -> Z.of_nat (length mem) = (2 ^ n)%Z -> (0 < aw)%Z -> 2 <= ns ->
  let x_in := hdmi_ycc_stream F s0 raw in
  let pix := occurrences (fun t => cap_pix (i t)) 0 in
  let sys u t := occurrences (fun t => cap_sys (i t)) u (t - u) in
  (forall t, cap_pix (i t) = true -> cap_pk (i t) = x_in (pix t)) ->
  forall K E B,
  runs_bounded (fun t => cap_sys (i t)) (fun t => negb (cap_mready (i t))) K ->
  runs_bounded (fun t => cap_sys (i t))
    (fun t => cap_wbusy (i t) && match c_write n F 16 aw dw align mem ra (dma_init ns) i t with None => true | Some _ => false end) E ->
  slow_enough F x_in (fun t => cap_pix (i t)) (fun t => cap_sys (i t)) K E B ->
  B + E + K + 5 < (K + 1) * (2 ^ Z.to_nat n - 2) ->
  keeps_running (fun t => cap_sys (i t)) -> keeps_running (fun t => cap_pix (i t)) ->
  forall T0, pix T0 = r 1 + E0 + 2 ->
  (forall t, T0 <= t -> Z.of_nat m = size_words aw align (cap_size (i t))) ->
  let loaded t c := Z.odd (slot_status n F 16 aw dw align mem ra ns i t c) = true in
  (forall t j, cap_sys (i t) = true -> loaded t j -> match cap_sw (i t) with SwNone => True | SwStatus k _ => k <> j | SwAddr k _ => k <> j end) ->
  let last f p := is_pix (Q p) = true /\ r f <= p < r (S f) /\ forall t, p < t < r (S f) -> is_pix (Q t) = false in
  forall Tq, eager n F 16 aw dw align mem ra ns i Tq -> T0 <= Tq -> B + 2 * (E + K) + 10 <= sys T0 Tq ->
  (forall f, 1 <= f -> exists p u, last f p /\ pix u = p + E0 + 13 /\ forall w, r (S f) + E0 + 2 < pix w -> B + 3 * E + 2 * K + 11 < sys u w) ->
  forall f v, 1 <= f -> 2 <= sys Tq v -> pix v <= r f + E0 + 2 -> exists x z c, Tq < x /\ length (picture_422 Q r f) = F * m /\ shows n F 16 aw dw align mem ra ns i m (picture_422 Q r f) x z c /\
  forall p u, last f p -> p + E0 + 13 <= pix u -> sys u z <= B + 3 * E + 2 * K + 11.
Proof.
  intros Q W HQ L raw HW s0 OK OD a0 b1 b2 LK.
  destruct (C145_hdmi_video_422 Q W HQ L raw HW s0 OK OD a0 b1 b2 LK) as (E0 & BE & V). exists E0. split; [exact BE|].
  intros hs vs ph pv SC QU l HL LE PL k m r K1 M1 F HFR QB HR0 n aw align mem ra ns i dw N HM Haw NS x_in pix sys HX
    K E B H1 H2 H3 HD Hsys Hpix T0 HT SZ loaded POL last Tq EG TQ SQ GAP f v F1 OV PV.
  destruct (V hs vs ph pv SC QU l HL LE PL k m r K1 M1 HFR QB HR0 n aw align mem ra ns i N HM Haw ltac:(lia) HX K E B H1 H2 H3 HD Hsys Hpix T0 HT SZ POL)
    as (fr & ID & P & R).
  destruct (Hsys Tq 1) as (t1 & T1 & O1).
  destruct (first_in (fun t => cap_sys (i t)) Tq (t1 - Tq)) as [G | (w & W1 & QW & NW)].
  { rewrite occ_zero in O1; [lia|exact G]. }
  destruct (eg_begins n F 16 aw dw align mem ra ns i Tq NS EG w ltac:(lia) NW QW) as [A1 (c0 & C0 & A2)].
  destruct (ID (S w) c0 A1 C0 A2) as (x0 & (X1 & X2 & X3) & FST).
  assert (SX : forall x, x0 <= x -> T0 <= x /\ B + 2 * (E + K) + 10 <= sys T0 x).
  { intros x LX. split; [lia|]. unfold sys in *. replace (x - T0) with ((Tq - T0) + (x - Tq)) by lia. rewrite occ_app. lia. }
  assert (FF : fr x0 <= f).
  { apply (FST) with (v := v); [|exact F1|apply (occ_second (fun t => cap_sys (i t)) Tq w v); (lia || assumption)|exact PV].
    split; [lia|]. unfold sys in *. replace (S w - T0) with ((Tq - T0) + (S w - Tq)) by lia. rewrite occ_app. lia. }
  destruct (R) with (x0 := x0) (N := f - fr x0) as (x & I1 & I2 & I3 & I4 & I5).
  - apply quick_relayed. intros t c C L0 _. destruct (Nat.le_gt_cases Tq t) as [T|T].
    + exact (eg_quick n F 16 aw dw align mem ra ns i Tq NS EG POL t c T C L0).
    + destruct (idle_at_first n F 16 aw dw align mem ra ns i t) as [_ Z0]; [intros u j vv U; apply (eg_before _ _ _ _ _ _ _ _ _ _ _ EG); lia|].
      rewrite Z0 in L0. discriminate.
  - apply SX. lia.
  - exact X2.
  - destruct (P x (SX x I1) I2) as (z & c & PL' & SH & _ & LAT). assert (FX : fr x = f) by (rewrite (I5 GAP); lia). rewrite FX in *.
    exists x, z, c. split; [lia|]. split; [exact PL'|]. split; [exact SH|exact LAT].
Qed.
Print Assumptions C148_every_picture_422.

(** The case of HdmiVideoProps.v again. *)
Example ex_every_picture : forall f, 2 <= f -> exists x z c, 60 * 100 < x /\
  shows 4 2 32 8 64 3 hd_mem 0 2 hd_in 45 (picture ex_src ex_r f) x z c.
Proof.
  intros f FF. destruct ex_source as (S1 & S2 & S3 & S4 & S5 & S6 & S7 & _ & S9).
  destruct (C148_every_picture ex_src ex_W S1 ex_L ex_hraw2 S5 rh_init S6 S7 1 40 72 S4) as (E0 & HE & X).
  assert (EB : E0 <= 20). { specialize (HE 0 ltac:(lia)). assert (ex_L 0 / 10 <= 6) by (apply Nat.leb_le; vm_compute; reflexivity). lia. }
  destruct (X ex_hs HdmiSrcProps.ex_vs true false S2 S3 210) with (k := 1) (m := 45) (r := ex_r) (n := 4%Z) (aw := 8%Z) (align := 3%Z) (mem := hd_mem)
    (ra := 0%Z) (ns := 2) (i := hd_in) (K := 1) (E := 0) (B := 6) (T0 := 4 * (ex_r 1 + E0 + 2)) (Tq := 60 * 100) (f := f) (v := 4 * 1501) as (x & z & c & XT & _ & SH & _).
  - lia.
  - exact S9.
  - lia.
  - lia.
  - exact ex_frames.
  - unfold ex_r. lia.
  - lia.
  - reflexivity.
  - lia.
  - lia.
  - intros t H. change (cap_pix (ex_live_in t) = true) in H. pose proof (ex_live_pix 0 t) as Q. rewrite (CaptureLiveProps.ex_mod (0 + t)) in Q. cbn [Nat.add] in Q.
    cbn [cap_pix ex_live_in] in H. rewrite H in Q. apply Nat.eqb_eq in H. pose proof (Nat.div_mod t 4 ltac:(lia)) as D.
    change (cap_pk (hd_in t)) with (cap_pk (ex_slot_in t)). change (fun t => cap_pix (hd_in t)) with (fun t => cap_pix (ex_live_in t)).
    cbn [cap_pk ex_slot_in]. do 3 f_equal. change (3 mod 4) with 3 in Q. lia.
  - exact ex_live_mem.
  - intros u t UT H. rewrite hd_sys. destruct (Nat.le_gt_cases (t - u) 0) as [L|L]; [exact L|]. exfalso. specialize (H u ltac:(lia) eq_refl). discriminate.
  - change 6 with (4 / 2 ^ 1 + (1 + 0 + 3)). apply clocks_slow_enough; [lia|]. intros a b _. rewrite hd_sys.
    change (fun t => cap_pix (hd_in t)) with (fun t => cap_pix (ex_live_in t)).
    pose proof (ex_live_pix a (b - a)) as QP. pose proof (Nat.mod_upper_bound (a + 3) 4 ltac:(lia)). change (2 ^ 1) with 2. lia.
  - apply Nat.ltb_lt; vm_compute; reflexivity.
  - exact (proj1 ex_live_running).
  - exact (proj2 ex_live_running).
  - apply hd_pix.
  - intros t _. vm_compute. reflexivity.
  - intros t j. apply drv_polite.
  - apply drv_eager.
  - unfold ex_r. lia.
  - rewrite hd_sys. unfold ex_r. lia.
  - intros g _. exists (ex_r g + 476), (4 * (ex_r g + 476 + E0 + 2)). split; [apply hd_last|]. split; [apply hd_pix|].
    intros w W. apply hd_pix_le in W. rewrite hd_sys. unfold ex_r in *. lia.
  - lia.
  - rewrite hd_sys. lia.
  - rewrite hd_pix. unfold ex_r. lia.
  - exists x, z, c. split; [exact XT|exact SH].
Qed.

(** The case of HdmiVideoYccProps.v again. *)
Example ex_every_picture_422 : forall f, 2 <= f -> exists x z c, 60 * 100 < x /\
  shows 4 2 16 8 32 2 hd_mem 0 2 hy_in 45 (picture_422 ex_src ex_r f) x z c.
Proof.
  intros f FF. destruct ex_source as (S1 & S2 & S3 & S4 & S5 & S6 & S7 & _ & S9).
  destruct (C148_every_picture_422 ex_src ex_W S1 ex_L ex_hraw2 S5 rh_init S6 S7 1 40 72 S4) as (E0 & HE & X).
  assert (EB : E0 <= 20). { specialize (HE 0 ltac:(lia)). assert (ex_L 0 / 10 <= 6) by (apply Nat.leb_le; vm_compute; reflexivity). lia. }
  destruct (X ex_hs HdmiSrcProps.ex_vs true false S2 S3 210) with (k := 1) (m := 45) (r := ex_r) (n := 4%Z) (aw := 8%Z) (align := 2%Z) (mem := hd_mem)
    (ra := 0%Z) (ns := 2) (i := hy_in) (K := 1) (E := 0) (B := 6) (T0 := 4 * (ex_r 1 + E0 + 2)) (Tq := 60 * 100) (f := f) (v := 4 * 1501) as (x & z & c & XT & _ & SH & _).
  - lia.
  - exact S9.
  - apply ex_paired.
  - lia.
  - lia.
  - exact ex_frames.
  - exact ex_quiet.
  - unfold ex_r. lia.
  - lia.
  - reflexivity.
  - lia.
  - lia.
  - intros t H. change (cap_pix (ex_live_in t) = true) in H. pose proof (ex_live_pix 0 t) as Q. rewrite (CaptureLiveProps.ex_mod (0 + t)) in Q. cbn [Nat.add] in Q.
    cbn [cap_pix ex_live_in] in H. rewrite H in Q. apply Nat.eqb_eq in H. pose proof (Nat.div_mod t 4 ltac:(lia)) as D.
    change (cap_pk (hy_in t)) with (cap_pk (ex_slot_in16 t)). change (fun t => cap_pix (hy_in t)) with (fun t => cap_pix (ex_live_in t)).
    cbn [cap_pk ex_slot_in16]. change (2 ^ 1) with 2. f_equal. change (3 mod 4) with 3 in Q. lia.
  - exact ex_live_mem.
  - intros u t UT H. rewrite hy_sys. destruct (Nat.le_gt_cases (t - u) 0) as [L|L]; [exact L|]. exfalso. specialize (H u ltac:(lia) eq_refl). discriminate.
  - change 6 with (4 / 2 ^ 1 + (1 + 0 + 3)). apply clocks_slow_enough; [lia|]. intros a b _. rewrite hy_sys.
    change (fun t => cap_pix (hy_in t)) with (fun t => cap_pix (ex_live_in t)).
    pose proof (ex_live_pix a (b - a)) as QP. pose proof (Nat.mod_upper_bound (a + 3) 4 ltac:(lia)). change (2 ^ 1) with 2. lia.
  - apply Nat.ltb_lt; vm_compute; reflexivity.
  - exact (proj1 ex_live_running).
  - exact (proj2 ex_live_running).
  - apply hy_pix.
  - intros t _. vm_compute. reflexivity.
  - intros t j. apply drv_polite.
  - apply drv_eager.
  - unfold ex_r. lia.
  - rewrite hy_sys. unfold ex_r. lia.
  - intros g _. exists (ex_r g + 476), (4 * (ex_r g + 476 + E0 + 13)). split; [apply hy_last|]. split; [apply hy_pix|].
    intros w W. apply hy_pix_le in W. rewrite hy_sys. unfold ex_r in *. lia.
  - lia.
  - rewrite hy_sys. lia.
  - rewrite hy_pix. unfold ex_r. lia.
  - exists x, z, c. split; [exact XT|exact SH].
Qed.

