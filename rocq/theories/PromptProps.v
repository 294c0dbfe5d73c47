(** C149: every picture is stored if software loads each slot again within fewer sys clocks than a picture has words. *)
From Coq Require Import ZArith List Bool Lia Arith.
From Verif Require Import Hdl Trace CdcProofs TmdsSpec CharSyncProps ChanSyncModel HdmiProps AnalysisModel HdmiModel HdmiProofs HdmiRxModel HdmiRxProps FrameProofs FrameProps LinkModel LinkProps
  HdmiSrcSpec HdmiSrcProofs HdmiSrcProps InDmaModel InDmaProofs InDmaProps FifoModel FifoProofs FifoProps
  CaptureModel CaptureProofs CaptureProps CaptureRateProofs CaptureLiveProofs CaptureLiveProps CscModel CscSpec ChromaProofs YccPathModel YccPathProps YccLinkModel YccLinkProps HdmiSlotProps HdmiSlotYccProps FairProofs FairProps PictureOrderProps PictureSkipProps PictureFlowProps DriverProps HdmiVideoProps HdmiVideoYccProps EagerProps.
From Verif Require CdcWerProps.
Import ListNotations.
Open Scope nat_scope.

(** From instant [Tq] on no slot stays without being loaded for more than [D] sys clocks; before, software writes no status register. *)
Record prompt (n : Z) (F : nat) (lw aw dw align : Z) (mem : list (bool * list Z)) (ra : Z) (ns : nat) (i : nat -> cap_in) (Tq D : nat) : Prop := {
  pr_before : forall t j v, t < Tq -> cap_sw (i t) <> SwStatus j v;
  pr_loads : forall u t j, Tq <= u -> u <= t -> j < ns -> (forall v, u <= v <= t -> Z.odd (slot_status n F lw aw dw align mem ra ns i v j) = false) ->
    occurrences (fun t => cap_sys (i t)) u (t - u) <= D
}.

Section Prompt.
Variables (n : Z) (F : nat) (lw aw dw align : Z) (mem : list (bool * list Z)) (ra : Z) (ns : nat) (i : nat -> cap_in) (Tq D : nat).
Hypothesis NS : 2 <= ns.
Hypothesis PR : prompt n F lw aw dw align mem ra ns i Tq D.
Let st t := cap_run n F lw aw dw align mem ra (dma_init ns) i t.
Let dma t := cap_dma (st t).
Let ld j t := Z.odd (slot_status n F lw aw dw align mem ra ns i t j).

(** While a slot is filled, which takes [m] sys clocks at least, every other one is loaded. *)
Lemma pr_relayed : forall m settled, D < m -> relayed n F lw aw dw align mem ra ns i m settled.
Proof.
  intros m settled DM x z c _ _ XZ C L _ OTH MW.
  destruct (Nat.le_gt_cases Tq x) as [TX|TX].
  2:{ destruct (idle_at_first n F lw aw dw align mem ra ns i x) as [_ Z0]; [intros u j v U; apply (pr_before _ _ _ _ _ _ _ _ _ _ _ _ PR); lia|].
      specialize (L x ltac:(lia)). rewrite Z0 in L. discriminate. }
  assert (J : exists j, j < ns /\ j <> c) by (destruct (Nat.eq_dec c 0) as [->|]; [exists 1|exists 0]; lia). destruct J as (j & J1 & J2).
  exists j. split; [exact J1|]. destruct (Z.odd (slot_status n F lw aw dw align mem ra ns i z j)) eqn:LZ; [reflexivity|exfalso].
  assert (NL : forall d, d <= z - x -> Z.odd (slot_status n F lw aw dw align mem ra ns i (z - d) j) = false).
  { induction d as [|d IH]; intros H; [rewrite Nat.sub_0_r; exact LZ|]. destruct (Z.odd (slot_status n F lw aw dw align mem ra ns i (z - S d) j)) eqn:G; [exfalso|reflexivity].
    pose proof (OTH j (z - S d) J1 J2 ltac:(lia) G) as G2. replace (S (z - S d)) with (z - d) in G2 by lia. rewrite IH in G2 by lia. discriminate. }
  pose proof (pr_loads _ _ _ _ _ _ _ _ _ _ _ _ PR x z j TX ltac:(lia) J1) as Q. specialize (Q ltac:(intros v V; replace v with (z - (z - v)) by lia; apply NL; lia)). lia.
Qed.

(** Within [D + 1] sys clocks a slot is loaded while the DMA is idle. *)
Lemma pr_begins : keeps_running (fun t => cap_sys (i t)) ->
  exists u c, Tq <= u /\ dma_idle n F lw aw dw align mem ra ns i u /\ c < ns /\ Z.odd (slot_status n F lw aw dw align mem ra ns i u c) = true /\
  occurrences (fun t => cap_sys (i t)) Tq (u - Tq) <= D + 1 /\
  forall t, Tq <= t < u -> c_starts n F lw aw dw align mem ra (dma_init ns) i t = false.
Proof.
  intros RUN. destruct (RUN Tq (D + 1)) as (t1 & T1 & O1).
  set (any := fun t => existsb (fun j => ld j t) (seq 0 ns)).
  assert (NO : forall t, any t = false -> forall j, j < ns -> ld j t = false).
  { intros t H j J. destruct (ld j t) eqn:L; [|reflexivity]. assert (X : any t = true) by (apply existsb_exists; exists j; split; [apply in_seq; lia|exact L]). congruence. }
  destruct (first_in any Tq (S t1 - Tq)) as [G | (u & U1 & PU & NU)].
  { pose proof (pr_loads _ _ _ _ _ _ _ _ _ _ _ _ PR Tq t1 0 (le_n _) T1 ltac:(lia)) as Q.
    specialize (Q ltac:(intros v V; apply (NO v); [apply G; lia|lia])). lia. }
  apply existsb_exists in PU as (c & C1 & C2). apply in_seq in C1.
  destruct (idle_at_first n F lw aw dw align mem ra ns i Tq (pr_before _ _ _ _ _ _ _ _ _ _ _ _ PR)) as [ID ZS].
  assert (UT : Tq < u). { destruct (Nat.eq_dec u Tq) as [G|]; [|lia]. exfalso. unfold ld in C2. rewrite G, ZS in C2. discriminate. }
  assert (AV : forall t, Tq <= t < u -> dm_av (dma t) = false).
  { intros t T. unfold dm_av, dm_slot, sl_loaded. rewrite Z.bit0_odd.
    assert (LEN : length (dm_slots (dma t)) = ns) by apply slots_count. rewrite LEN.
    apply (NO t (NU t ltac:(lia)) (Nat.min (dm_cur (dma t)) (ns - 1))). lia. }
  assert (IDL : forall t, Tq <= t -> t <= u -> dm_fsm (dma t) = WAIT_SOF).
  { intros t T. induction T as [|t T IH]; intros L; [exact ID|]. pose proof (c_dma_step n F lw aw dw align mem ra (dma_init ns) i t) as S1.
    change (dma (S t) = if c_sys i t then dma_step aw dw align (dma t) (c_din n F lw aw dw align mem ra (dma_init ns) i t) else dma t) in S1.
    rewrite S1. destruct (c_sys i t); [|apply IH; lia]. unfold dma_step; cbn [dm_fsm]. rewrite IH by lia. unfold dm_start. rewrite IH, AV by lia. reflexivity. }
  exists u, c. split; [lia|]. split; [apply IDL; lia|]. split; [lia|]. split; [exact C2|]. split.
  - pose proof (pr_loads _ _ _ _ _ _ _ _ _ _ _ _ PR Tq (u - 1) 0 (le_n _) ltac:(lia) ltac:(lia)) as Q.
    specialize (Q ltac:(intros v V; apply (NO v); [apply NU; lia|lia])). replace (u - Tq) with ((u - 1 - Tq) + 1) by lia. rewrite occ_app.
    cbn [occurrences]. destruct (cap_sys (i (Tq + (u - 1 - Tq) + 0))); lia.
  - intros t T. unfold c_starts. change (cap_dma (cap_run n F lw aw dw align mem ra (dma_init ns) i t)) with (dma t). unfold dm_start. rewrite IDL, AV by lia. apply andb_false_r.
Qed.
End Prompt.

(** Captures go on without end, with two slots or more and any software that loads every slot again within [D] sys clocks, less than a frame has
    words: the first one starts at [x0] and holds frame [f0], no later than the first frame that begins after [D + 2] sys clocks; the [N]-th
    next one holds a frame between [f0 + N] and [f0 + 2 * N], and exactly frame [f0 + N] if there are more than [B + 3 * E + 2 * K + 11]
    sys clocks between frames. *)
Theorem C149_prompt_software : forall n F lw aw dw align mem ra ns i X K E B b m words T0 Tq D, 2 <= ns -> D < m ->
  streaming n F lw aw dw align mem ra ns i X K E B b m words T0 -> prompt n F lw aw dw align mem ra ns i Tq D ->
  T0 <= Tq -> B + 2 * (E + K) + 10 <= occurrences (fun t => cap_sys (i t)) T0 (Tq - T0) ->
  let starts := c_starts n F lw aw dw align mem ra (dma_init ns) i in
  exists x0 f0, Tq <= x0 /\ starts x0 = true /\ (forall t, Tq <= t < x0 -> starts t = false) /\
  (forall v g, D + 2 <= occurrences (fun t => cap_sys (i t)) Tq (v - Tq) -> occurrences (fun t => cap_pix (i t)) 0 v <= b g -> f0 <= g) /\
  forall N, exists x z c f, x0 <= x /\ starts x = true /\ occurrences starts (S x0) (x - x0) = N /\
  fills n F lw aw dw align mem ra ns i m words x z c f /\ f0 + N <= f <= f0 + 2 * N /\
  ((forall f, exists u k, occurrences (fun t => cap_pix (i t)) 0 u = b f + k /\ length (collect (word_out F X) (b f) k) = m /\
     forall w, b (f + 1) < occurrences (fun t => cap_pix (i t)) 0 w -> B + 3 * E + 2 * K + 11 < occurrences (fun t => cap_sys (i t)) u (w - u)) ->
   f = f0 + N).
Proof.
  intros n F lw aw dw align mem ra ns i X K E B b m words T0 Tq D NS DM SM PR TQ SQ starts.
  destruct (C142_continuous_capture n F lw aw dw align mem ra ns i X K E B b m words T0 SM) as (fr & ID & R).
  destruct (pr_begins n F lw aw dw align mem ra ns i Tq D NS PR (sm_sys _ _ _ _ _ _ _ _ _ _ _ _ _ _ _ _ _ _ SM)) as (u & c0 & U1 & A1 & C0 & A2 & OU & NU).
  destruct (ID u c0 A1 C0 A2) as (x0 & (X1 & X2 & X3) & FST).
  assert (SU : forall w, Tq <= w -> T0 <= w /\ B + 2 * (E + K) + 10 <= occurrences (fun t => cap_sys (i t)) T0 (w - T0)).
  { intros w W. split; [lia|]. replace (w - T0) with ((Tq - T0) + (w - Tq)) by lia. rewrite occ_app. lia. }
  exists x0, (fr x0). split; [lia|]. split; [exact X2|]. split.
  { intros t T. destruct (Nat.lt_ge_cases t u) as [L|L]; [apply NU; lia|apply X3; lia]. }
  split.
  { intros v g OV PV. apply (FST (SU u U1) v g); [|exact PV]. destruct (Nat.le_gt_cases u v) as [L|L].
    - rewrite (occ_split (fun t => cap_sys (i t)) Tq u v) in OV by lia. lia.
    - destruct (Nat.le_gt_cases Tq v) as [L2|L2]; [rewrite (occ_split (fun t => cap_sys (i t)) Tq v u) in OU by lia; lia|].
      replace (v - Tq) with 0 in OV by lia. cbn in OV. lia. }
  intros N. destruct (R x0 (pr_relayed n F lw aw dw align mem ra ns i Tq D NS PR m _ DM) (SU x0 ltac:(lia)) X2 N) as (x & z & c & I1 & I2 & I3 & I4 & I5 & I6).
  exists x, z, c, (fr x). split; [exact I1|]. split; [exact I2|]. split; [exact I3|]. split; [exact I4|]. split; [exact I5|exact I6].
Qed.
Print Assumptions C149_prompt_software.

(** Source, receiver, memory and prompt software together: C148 with this software. *)
Theorem C149_every_picture : forall Q W, hdmi_source Q W -> forall L raw, wired W L raw ->
  forall s0, rx_ok (rh_rx s0) -> one_deep s0 -> forall a0 b1 b2, lock_sequence Q a0 b1 b2 ->
  exists E0, (forall k, k < 3 -> L k / 10 + 6 < E0 <= L k / 10 + 14) /\
  forall hs vs ph pv, sync_coded Q hs vs ph pv -> quiet_after_line Q hs vs ->
  forall l, b2 + 20 <= l -> line_ends Q l = true ->
  forall k m r, 1 <= k -> 1 <= m -> let F := 2 ^ k in hdmi_frames Q vs (F * m) r -> l < r 0 ->
  forall n aw align mem ra ns (i : nat -> cap_in), let dw := (32 * Z.of_nat F)%Z in
  (1 <= n)%Z -> Z.of_nat (length mem) = (2 ^ n)%Z -> (0 < aw)%Z -> 2 <= ns ->
  let x_in t := rx_pk_in (rh_rx (rh_run s0 raw hdmi_mode t)) in
  let pix := occurrences (fun t => cap_pix (i t)) 0 in
  let sys u t := occurrences (fun t => cap_sys (i t)) u (t - u) in
  (forall t, cap_pix (i t) = true -> cap_pk (i t) = x_in (pix t)) ->
  forall K E B,
  runs_bounded (fun t => cap_sys (i t)) (fun t => negb (cap_mready (i t))) K ->
  runs_bounded (fun t => cap_sys (i t))
    (fun t => cap_wbusy (i t) && match c_write n F 32 aw dw align mem ra (dma_init ns) i t with None => true | Some _ => false end) E ->
  slow_enough F x_in (fun t => cap_pix (i t)) (fun t => cap_sys (i t)) K E B ->
  B + E + K + 5 < (K + 1) * (2 ^ Z.to_nat n - 2) ->
  keeps_running (fun t => cap_sys (i t)) -> keeps_running (fun t => cap_pix (i t)) ->
  forall T0, pix T0 = r 1 + E0 + 2 ->
  (forall t, T0 <= t -> Z.of_nat m = size_words aw align (cap_size (i t))) ->
  let loaded t c := Z.odd (slot_status n F 32 aw dw align mem ra ns i t c) = true in
  (forall t j, cap_sys (i t) = true -> loaded t j -> match cap_sw (i t) with SwNone => True | SwStatus k _ => k <> j | SwAddr k _ => k <> j end) ->
  let last f p := r f <= p < r (S f) /\ forall t, p < t < r (S f) -> is_pix (Q t) = false in
  forall Tq D, D < m -> prompt n F 32 aw dw align mem ra ns i Tq D -> T0 <= Tq -> B + 2 * (E + K) + 10 <= sys T0 Tq ->
  (forall f, 1 <= f -> exists p u, last f p /\ pix u = p + E0 + 2 /\ forall w, r (S f) + E0 + 2 < pix w -> B + 3 * E + 2 * K + 11 < sys u w) ->
  forall f v, 1 <= f -> D + 2 <= sys Tq v -> pix v <= r f + E0 + 2 -> exists x z c, Tq <= x /\ length (picture Q r f) = F * m /\ shows n F 32 aw dw align mem ra ns i m (picture Q r f) x z c /\
  forall p u, last f p -> p + E0 + 2 <= pix u -> sys u z <= B + 3 * E + 2 * K + 11.
Proof.
  intros Q W HQ L raw HW s0 OK OD a0 b1 b2 LK.
  destruct (C143_hdmi_video Q W HQ L raw HW s0 OK OD a0 b1 b2 LK) as (E0 & BE & V). exists E0. split; [exact BE|].
  intros hs vs ph pv SC QU l HL LE k m r K1 M1 F HFR HR0 n aw align mem ra ns i dw N HM Haw NS x_in pix sys HX
    K E B H1 H2 H3 HD Hsys Hpix T0 HT SZ loaded POL last Tq D DM PR TQ SQ GAP f v F1 OV PV.
  destruct (V hs vs ph pv SC QU l HL LE k m r K1 M1 HFR HR0 n aw align mem ra ns i N HM Haw ltac:(lia) HX K E B H1 H2 H3 HD Hsys Hpix T0 HT SZ POL)
    as (fr & ID & P & R).
  destruct (pr_begins n F 32 aw dw align mem ra ns i Tq D NS PR Hsys) as (u0 & c0 & U1 & A1 & C0 & A2 & OU & NU).
  destruct (ID u0 c0 A1 C0 A2) as (x0 & (X1 & X2 & X3) & FST).
  assert (SX : forall x, Tq <= x -> T0 <= x /\ B + 2 * (E + K) + 10 <= sys T0 x).
  { intros x LX. split; [lia|]. unfold sys in *. replace (x - T0) with ((Tq - T0) + (x - Tq)) by lia. rewrite occ_app. lia. }
  assert (FF : fr x0 <= f).
  { apply (FST) with (v := v); [apply SX; lia|exact F1| |exact PV]. unfold sys in *. destruct (Nat.le_gt_cases u0 v) as [L1|L1].
    - rewrite (occ_split (fun t => cap_sys (i t)) Tq u0 v) in OV by lia. lia.
    - destruct (Nat.le_gt_cases Tq v) as [L2|L2]; [rewrite (occ_split (fun t => cap_sys (i t)) Tq v u0) in OU by lia; lia|].
      replace (v - Tq) with 0 in OV by lia. cbn in OV. lia. }
  destruct (R) with (x0 := x0) (N := f - fr x0) as (x & I1 & I2 & I3 & I4 & I5).
  - exact (pr_relayed n F 32 aw dw align mem ra ns i Tq D NS PR m _ DM).
  - apply SX. lia.
  - exact X2.
  - destruct (P x (SX x ltac:(lia)) I2) as (z & c & PL' & SH & _ & LAT). assert (FX : fr x = f) by (rewrite (I5 GAP); lia). rewrite FX in *.
    exists x, z, c. split; [lia|]. split; [exact PL'|]. split; [exact SH|exact LAT].
Qed.
Print Assumptions C149_every_picture.

(** The same in ycbcr422 mode. *)
Theorem C149_every_picture_422 : forall Q W, hdmi_source Q W -> forall L raw, wired W L raw ->
  forall s0, rx_ok (rh_rx s0) -> one_deep s0 -> forall a0 b1 b2, lock_sequence Q a0 b1 b2 ->
  exists E0, (forall k, k < 3 -> L k / 10 + 6 < E0 <= L k / 10 + 14) /\
  forall hs vs ph pv, sync_coded Q hs vs ph pv -> quiet_after_line Q hs vs ->
  forall l, b2 + 20 <= l -> line_ends Q l = true -> paired_lines Q l ->
  forall k m r, 1 <= k -> 1 <= m -> let F := 2 ^ k in hdmi_frames Q vs (F * m) r -> quiet_before Q r -> l + 11 <= r 0 ->
  forall n aw align mem ra ns (i : nat -> cap_in), let dw := (16 * Z.of_nat F)%Z in
  (1 <= n)%Z -> Z.of_nat (length mem) = (2 ^ n)%Z -> (0 < aw)%Z -> 2 <= ns ->
  let x_in := hdmi_ycc_stream F s0 raw in
  let pix := occurrences (fun t => cap_pix (i t)) 0 in
  let sys u t := occurrences (fun t => cap_sys (i t)) u (t - u) in
  (forall t, cap_pix (i t) = true -> cap_pk (i t) = x_in (pix t)) ->
  forall K E B,
  runs_bounded (fun t => cap_sys (i t)) (fun t => negb (cap_mready (i t))) K ->
  runs_bounded (fun t => cap_sys (i t))
    (fun t => cap_wbusy (i t) && match c_write n F 16 aw dw align mem ra (dma_init ns) i t with None => true | Some _ => false end) E ->
  slow_enough F x_in (fun t => cap_pix (i t)) (fun t => cap_sys (i t)) K E B ->
  B + E + K + 5 < (K + 1) * (2 ^ Z.to_nat n - 2) ->
  keeps_running (fun t => cap_sys (i t)) -> keeps_running (fun t => cap_pix (i t)) ->
  forall T0, pix T0 = r 1 + E0 + 2 ->
  (forall t, T0 <= t -> Z.of_nat m = size_words aw align (cap_size (i t))) ->
  let loaded t c := Z.odd (slot_status n F 16 aw dw align mem ra ns i t c) = true in
  (forall t j, cap_sys (i t) = true -> loaded t j -> match cap_sw (i t) with SwNone => True | SwStatus k _ => k <> j | SwAddr k _ => k <> j end) ->
  let last f p := is_pix (Q p) = true /\ r f <= p < r (S f) /\ forall t, p < t < r (S f) -> is_pix (Q t) = false in
  forall Tq D, D < m -> prompt n F 16 aw dw align mem ra ns i Tq D -> T0 <= Tq -> B + 2 * (E + K) + 10 <= sys T0 Tq ->
  (forall f, 1 <= f -> exists p u, last f p /\ pix u = p + E0 + 13 /\ forall w, r (S f) + E0 + 2 < pix w -> B + 3 * E + 2 * K + 11 < sys u w) ->
  forall f v, 1 <= f -> D + 2 <= sys Tq v -> pix v <= r f + E0 + 2 -> exists x z c, Tq <= x /\ length (picture_422 Q r f) = F * m /\ shows n F 16 aw dw align mem ra ns i m (picture_422 Q r f) x z c /\
  forall p u, last f p -> p + E0 + 13 <= pix u -> sys u z <= B + 3 * E + 2 * K + 11.
Proof.
  intros Q W HQ L raw HW s0 OK OD a0 b1 b2 LK.
  destruct (C145_hdmi_video_422 Q W HQ L raw HW s0 OK OD a0 b1 b2 LK) as (E0 & BE & V). exists E0. split; [exact BE|].
  intros hs vs ph pv SC QU l HL LE PL k m r K1 M1 F HFR QB HR0 n aw align mem ra ns i dw N HM Haw NS x_in pix sys HX
    K E B H1 H2 H3 HD Hsys Hpix T0 HT SZ loaded POL last Tq D DM PR TQ SQ GAP f v F1 OV PV.
  destruct (V hs vs ph pv SC QU l HL LE PL k m r K1 M1 HFR QB HR0 n aw align mem ra ns i N HM Haw ltac:(lia) HX K E B H1 H2 H3 HD Hsys Hpix T0 HT SZ POL)
    as (fr & ID & P & R).
  destruct (pr_begins n F 16 aw dw align mem ra ns i Tq D NS PR Hsys) as (u0 & c0 & U1 & A1 & C0 & A2 & OU & NU).
  destruct (ID u0 c0 A1 C0 A2) as (x0 & (X1 & X2 & X3) & FST).
  assert (SX : forall x, Tq <= x -> T0 <= x /\ B + 2 * (E + K) + 10 <= sys T0 x).
  { intros x LX. split; [lia|]. unfold sys in *. replace (x - T0) with ((Tq - T0) + (x - Tq)) by lia. rewrite occ_app. lia. }
  assert (FF : fr x0 <= f).
  { apply (FST) with (v := v); [apply SX; lia|exact F1| |exact PV]. unfold sys in *. destruct (Nat.le_gt_cases u0 v) as [L1|L1].
    - rewrite (occ_split (fun t => cap_sys (i t)) Tq u0 v) in OV by lia. lia.
    - destruct (Nat.le_gt_cases Tq v) as [L2|L2]; [rewrite (occ_split (fun t => cap_sys (i t)) Tq v u0) in OU by lia; lia|].
      replace (v - Tq) with 0 in OV by lia. cbn in OV. lia. }
  destruct (R) with (x0 := x0) (N := f - fr x0) as (x & I1 & I2 & I3 & I4 & I5).
  - exact (pr_relayed n F 16 aw dw align mem ra ns i Tq D NS PR m _ DM).
  - apply SX. lia.
  - exact X2.
  - destruct (P x (SX x ltac:(lia)) I2) as (z & c & PL' & SH & _ & LAT). assert (FX : fr x = f) by (rewrite (I5 GAP); lia). rewrite FX in *.
    exists x, z, c. split; [lia|]. split; [exact PL'|]. split; [exact SH|exact LAT].
Qed.
Print Assumptions C149_every_picture_422.

(** * Polling software *)
(** A specification of software that looks at one slot every [P] instants, at all slots in turn, and loads it if it is not loaded. *)
Definition poll (ns P Tq t : nat) (s : cap_st) : sw :=
  if (Tq <=? t) && (t mod P =? 0) then
    let j := (t / P) mod ns in if Z.odd (sl_status (nth j (dm_slots (cap_dma s)) slot0)) then SwNone else SwStatus j 1
  else SwNone.
Fixpoint poll_loop (n : Z) (F : nat) (lw aw dw align : Z) (mem : list (bool * list Z)) (ra : Z) (ns P Tq : nat) (e : nat -> cap_in) (t : nat) : cap_st :=
  match t with
  | O => {| cap_fe := FifoModel.fe_init F mem ra; cap_dma := dma_init ns |}
  | S t => let s := poll_loop n F lw aw dw align mem ra ns P Tq e t in cap_step n F lw aw dw align s (with_sw (e t) (poll ns P Tq t s))
  end.
Definition polled (n : Z) (F : nat) (lw aw dw align : Z) (mem : list (bool * list Z)) (ra : Z) (ns P Tq : nat) (e : nat -> cap_in) (t : nat) : cap_in :=
  with_sw (e t) (poll ns P Tq t (poll_loop n F lw aw dw align mem ra ns P Tq e t)).

Section Poll.
Variables (n : Z) (F : nat) (lw aw dw align : Z) (mem : list (bool * list Z)) (ra : Z) (ns P Tq : nat) (e : nat -> cap_in).
Hypothesis NS : 1 <= ns.
Hypothesis HP : 1 <= P.
Hypothesis SYS : forall t, cap_sys (e t) = true.
Let i := polled n F lw aw dw align mem ra ns P Tq e.

Lemma poll_run : forall t, cap_run n F lw aw dw align mem ra (dma_init ns) i t = poll_loop n F lw aw dw align mem ra ns P Tq e t.
Proof.
  induction t as [|t IH]; [reflexivity|].
  change (cap_run n F lw aw dw align mem ra (dma_init ns) i (S t)) with (cap_step n F lw aw dw align (cap_run n F lw aw dw align mem ra (dma_init ns) i t) (i t)).
  rewrite IH. reflexivity.
Qed.
Lemma poll_sw : forall t, cap_sw (i t) = if (Tq <=? t) && (t mod P =? 0) then
  (if Z.odd (slot_status n F lw aw dw align mem ra ns i t ((t / P) mod ns)) then SwNone else SwStatus ((t / P) mod ns) 1) else SwNone.
Proof. intros t. unfold slot_status. rewrite poll_run. reflexivity. Qed.
Lemma poll_polite : forall t j, cap_sys (i t) = true -> Z.odd (slot_status n F lw aw dw align mem ra ns i t j) = true ->
  match cap_sw (i t) with SwNone => True | SwStatus k _ => k <> j | SwAddr k _ => k <> j end.
Proof.
  intros t j _ L. rewrite poll_sw. destruct ((Tq <=? t) && (t mod P =? 0)); [|exact I].
  destruct (Z.odd (slot_status n F lw aw dw align mem ra ns i t ((t / P) mod ns))) eqn:G; [exact I|]. intros <-. congruence.
Qed.
(** Among [P * ns] consecutive instants there is one at which slot [j] has its turn. *)
Lemma poll_turn : forall u j, j < ns -> exists t, u <= t < u + P * ns /\ t mod P = 0 /\ (t / P) mod ns = j.
Proof.
  intros u j J. set (q := (u + P - 1) / P).
  pose proof (Nat.div_mod (u + P - 1) P ltac:(lia)) as D1. pose proof (Nat.mod_upper_bound (u + P - 1) P ltac:(lia)) as D2. fold q in D1.
  set (d := (j + ns - q mod ns) mod ns). pose proof (Nat.mod_upper_bound (j + ns - q mod ns) ns ltac:(lia)) as B1. fold d in B1.
  pose proof (Nat.mod_upper_bound q ns ltac:(lia)) as B2.
  exists ((q + d) * P). split; [nia|]. split; [apply Nat.mod_mul; lia|]. rewrite Nat.div_mul by lia.
  rewrite Nat.add_mod by lia. unfold d. rewrite Nat.mod_mod by lia. rewrite <- Nat.add_mod_idemp_l by lia. rewrite Nat.mod_mod by lia.
  rewrite Nat.add_mod_idemp_r by lia. replace (q mod ns + (j + ns - q mod ns)) with (j + 1 * ns) by lia. rewrite Nat.mod_add by lia. apply Nat.mod_small. exact J.
Qed.
Example poll_prompt : prompt n F lw aw dw align mem ra ns i Tq (P * ns).
Proof.
  constructor.
  - intros t j v T W. rewrite poll_sw in W. destruct (Nat.leb_spec Tq t); [lia|discriminate].
  - intros u t j TU UT J H. change (fun t => cap_sys (i t)) with (fun t => cap_sys (e t)). etransitivity; [apply CdcWerProps.occ_le|].
    destruct (Nat.le_gt_cases (t - u) (P * ns)) as [L|L]; [exact L|exfalso].
    destruct (poll_turn u j J) as (w & W1 & W2 & W3). pose proof (poll_sw w) as S1. rewrite W2, W3, (H w) in S1 by lia.
    rewrite (proj2 (Nat.leb_le Tq w)) in S1 by lia. cbn [andb Nat.eqb] in S1.
    specialize (H (S w) ltac:(lia)). unfold slot_status in H. rewrite c_dma_step in H. change (c_sys i w) with (cap_sys (e w)) in H. rewrite SYS in H.
    unfold dma_step in H; cbn [dm_slots] in H. rewrite slots_nth in H by (rewrite slots_count; exact J). rewrite Nat.add_0_l in H. unfold slot_step in H.
    change (dmi_sw (c_din n F lw aw dw align mem ra (dma_init ns) i w)) with (cap_sw (i w)) in H. rewrite S1, Nat.eqb_refl in H. discriminate.
Qed.
End Poll.

(** The source of HdmiSlotProps.v, three slots of which one is polled every ten clocks from instant 6000 on: with pictures of 45 words every
    picture from picture 2 on is stored. *)
Definition hp_in : nat -> cap_in := polled 4 (2 ^ 1) 32 8 (32 * Z.of_nat (2 ^ 1)) 3 hd_mem 0 3 10 (60 * 100) ex_slot_in.
Lemma hp_sys : forall a k, occurrences (fun t => cap_sys (hp_in t)) a k = k.
Proof. intros a k. change (fun t => cap_sys (hp_in t)) with (fun _ : nat => true). apply fl_occ. Qed.
Lemma hp_pix : forall k, occurrences (fun t => cap_pix (hp_in t)) 0 (4 * k) = k.
Proof. exact hd_pix. Qed.
Example ex_polled_picture : forall f, 2 <= f -> exists x z c, 60 * 100 <= x /\
  shows 4 2 32 8 64 3 hd_mem 0 3 hp_in 45 (picture ex_src ex_r f) x z c.
Proof.
  intros f FF. destruct ex_source as (S1 & S2 & S3 & S4 & S5 & S6 & S7 & _ & S9).
  destruct (C149_every_picture ex_src ex_W S1 ex_L ex_hraw2 S5 rh_init S6 S7 1 40 72 S4) as (E0 & HE & X).
  assert (EB : E0 <= 20). { specialize (HE 0 ltac:(lia)). assert (ex_L 0 / 10 <= 6) by (apply Nat.leb_le; vm_compute; reflexivity). lia. }
  destruct (X ex_hs HdmiSrcProps.ex_vs true false S2 S3 210) with (k := 1) (m := 45) (r := ex_r) (n := 4%Z) (aw := 8%Z) (align := 3%Z) (mem := hd_mem)
    (ra := 0%Z) (ns := 3) (i := hp_in) (K := 1) (E := 0) (B := 6) (T0 := 4 * (ex_r 1 + E0 + 2)) (Tq := 60 * 100) (D := 10 * 3) (f := f) (v := 4 * 1508) as (x & z & c & XT & _ & SH & _).
  - lia.
  - exact S9.
  - lia.
  - lia.
  - exact ex_frames.
  - unfold ex_r. lia.
  - lia.
  - reflexivity.
  - lia.
  - lia.
  - intros t H. change (cap_pix (ex_live_in t) = true) in H. pose proof (ex_live_pix 0 t) as Q. rewrite (CaptureLiveProps.ex_mod (0 + t)) in Q. cbn [Nat.add] in Q.
    cbn [cap_pix ex_live_in] in H. rewrite H in Q. apply Nat.eqb_eq in H. pose proof (Nat.div_mod t 4 ltac:(lia)) as D.
    change (cap_pk (hp_in t)) with (cap_pk (ex_slot_in t)). change (fun t => cap_pix (hp_in t)) with (fun t => cap_pix (ex_live_in t)).
    cbn [cap_pk ex_slot_in]. do 3 f_equal. change (3 mod 4) with 3 in Q. lia.
  - exact ex_live_mem.
  - intros u t UT H. rewrite hp_sys. destruct (Nat.le_gt_cases (t - u) 0) as [L|L]; [exact L|]. exfalso. specialize (H u ltac:(lia) eq_refl). discriminate.
  - change 6 with (4 / 2 ^ 1 + (1 + 0 + 3)). apply clocks_slow_enough; [lia|]. intros a b _. rewrite hp_sys.
    change (fun t => cap_pix (hp_in t)) with (fun t => cap_pix (ex_live_in t)).
    pose proof (ex_live_pix a (b - a)) as QP. pose proof (Nat.mod_upper_bound (a + 3) 4 ltac:(lia)). change (2 ^ 1) with 2. lia.
  - apply Nat.ltb_lt; vm_compute; reflexivity.
  - exact (proj1 ex_live_running).
  - exact (proj2 ex_live_running).
  - apply hp_pix.
  - intros t _. vm_compute. reflexivity.
  - intros t j. apply poll_polite.
  - lia.
  - apply poll_prompt; [lia|lia|reflexivity].
  - unfold ex_r. lia.
  - rewrite hp_sys. unfold ex_r. lia.
  - intros g _. exists (ex_r g + 476), (4 * (ex_r g + 476 + E0 + 2)). split; [apply hd_last|]. split; [apply hp_pix|].
    intros w W. apply hd_pix_le in W. rewrite hp_sys. unfold ex_r in *. lia.
  - lia.
  - rewrite hp_sys. lia.
  - rewrite hp_pix. unfold ex_r. lia.
  - exists x, z, c. split; [exact XT|exact SH].
Qed.
