(** C125: moving pictures over the link, with more than one buffer at both ends. *)
From Coq Require Import ZArith List Bool Lia Arith.
From Verif Require Import Hdl Trace CdcProofs AnalysisModel TimingModel TimingSpec TimingProofs VideoOutModel VideoOutProofs
  HdmiModel HdmiProofs LinkModel LinkProofs LinkProps InDmaModel FifoModel FifoProofs FifoProps CaptureModel CaptureProofs CaptureProps
  FrameProofs FrameProps InDmaProofs InDmaProps GenlockProps PhyModel PhyProps StartupProofs StartupProps OutTopModel OutTopProofs OutTopProps
  OutSwapProps JoinProps CaptureRateProofs CaptureLiveProofs CaptureLiveProps FrameLiveProofs FairProofs FairProps SlotRegProps CscModel CscSpec YccPathModel YccPathProps YccLinkModel YccLinkProps
  OutLiveProps StreamLinkProofs HdmiProps.
Import ListNotations.
Open Scope Z_scope.

Lemma stored_colour : forall d d', colour d = colour d' -> stored d = stored d'.
Proof. intros d d' H. unfold colour in H. unfold stored. injection H as -> -> ->. reflexivity. Qed.
(** The 4:2:2 pixel [q] of a frame that starts at an even place of the stream. *)
Lemma stored_422_at : forall w w' base n q, Nat.even base = true -> Nat.even n = true -> (q < n)%nat ->
  (forall j, (j < n)%nat -> colour (w (base + j)%nat) = colour (w' j)) -> stored_422 w (base + q) = stored_422 w' q.
Proof.
  intros w w' base n q EB EN Q H.
  destruct (even_half _ q EB) as (V1 & V2 & V3). destruct (even_half _ q EN) as (_ & _ & V4).
  unfold stored_422. cbv zeta. rewrite V1, V2. replace (2 * (base / 2 + q / 2))%nat with (base + 2 * (q / 2))%nat by lia.
  assert (X1 : (2 * (q / 2) <= q)%nat) by (apply Nat.mul_div_le; lia).
  assert (X2 : (2 * (q / 2) + 1 < n)%nat).
  { assert (q / 2 < n / 2)%nat by (apply Nat.div_lt_upper_bound; lia). lia. }
  replace (base + 2 * (q / 2) + 1)%nat with (base + (2 * (q / 2) + 1))%nat by lia.
  rewrite !H by lia. reflexivity.
Qed.

(** The transmitter's software moves the base address whenever it likes; the receiver's software keeps loading slots 0 and 1.
    Each time it does so, the buffer that it has programmed receives one whole frame, not older than the one after [T0];
    it shows two pictures at most, the first for [Tt] pixels, no more than the transmitter's reader can buffer, and both
    were in the registers no more than four (three) frames before. *)
Theorem C125_no_tearing :
  forall shift txaw depth txmem txra (ti : nat -> ot_in), 0 <= txaw -> length txmem = 4%nat ->
  forall u p t0, enabled_moving shift txaw depth txmem txra ti u p t0 ->
  params_ok p -> 24 <= p_hres p -> p_hres p + 30 <= p_hscan p + 1 -> 1 <= p_vres p <= p_vscan p ->
  p_hres p < p_hs_start p -> p_vres p <= p_vs_start p < p_vs_end p ->
  p_hres p * p_vres p < 2 ^ txaw -> Z.of_nat depth <= p_hres p * p_vres p ->
  let HV := (p_hscan p + 1) * (p_vscan p + 1) in
  forall E, clocks ti HV E -> (forall x, ot_ready (ti x) = true) ->
  forall Mtx junk, let st := ot_run shift txaw depth txmem txra ti in
  let o n := ot_px shift txaw Mtx (junk n) (st (E n)) (ti (E n)) in
  let dv n := ot_dv shift txaw (st (E n)) (ti (E n)) in
  let n0 := occurrences (fun x => ot_cd (ti x)) 0 t0 in
  let pos n := Z.of_nat n - Z.of_nat n0 - Z.of_nat (underflows o dv n) in
  let regs t := ini_regs (ot_ini (st t)) in
  forall T, (n0 <= T)%nat -> (forall n, (T <= n)%nat -> px_de (o n) = true -> dv n = true) ->
  let late := (n0 + underflows o dv T)%nat in
  forall g, 1 <= g -> Z.of_nat T + 30 <= Z.of_nat late + 1 + g * HV ->
  forall N, (N <= T)%nat -> forall L Lmin raw s0, link_at N o L Lmin raw s0 ->
  forall k m, (1 <= k)%nat -> let F := (2 ^ k)%nat in p_hres p * p_vres p = Z.of_nat (F * m) ->
  exists D, (forall k, (k < 3)%nat -> (L k / 10 + 7 < D <= L k / 10 + 15)%nat) /\
  (forall n, Z.of_nat late + Z.of_nat D + (g + 4) * HV <= Z.of_nat (N + n) ->
   let r := rx_rd (rx_run s0 raw n) in rd_h r = p_hres p mod 2 ^ 11 /\ rd_v r = p_vres p mod 2 ^ 11) /\
  forall n aw align mem ra ns (i : nat -> cap_in), let dw := 32 * Z.of_nat F in
  forall K Ed B T0 e, 0 <= e -> serving n F 32 aw dw align mem ra ns i (pk_stream s0 raw) K Ed B m T0 ->
  let vsync_of v := 1 + (v * (p_vscan p + 1) + p_vs_start p) * (p_hscan p + 1) in
  Z.of_nat (N + occurrences (fun v => cap_pix (i v)) 0 T0) = vsync_of (g + 2 + e) + Z.of_nat (late + D) + 1 ->
  forall w c addr, programs n F 32 aw dw align mem ra ns i K Ed B T0 w c addr ->
  let a := (addr / 2 ^ align) mod 2 ^ aw in
  exists x z, (w < x < z)%nat /\ (forall t, (w < t < z)%nat -> Z.odd (slot_status n F 32 aw dw align mem ra ns i t c) = true) /\
  slot_status n F 32 aw dw align mem ra ns i z c = 2 /\
  forall M, let M' := after M (collect (c_write n F 32 aw dw align mem ra (dma_init ns) i) x (z - x)) in
  exists f ta tb Tt, g + e + 3 <= f /\ (Tt <= depth)%nat /\ (u <= ta)%nat /\ (u <= tb)%nat /\
  (forall n', (n0 <= n')%nat -> 5 <= f -> pos n' <= (f - 4) * HV -> (E n' <= ta)%nat) /\
  (forall n', (n0 <= n')%nat -> pos n' <= (f - 3) * HV -> (E n' <= tb)%nat) /\
  (let shown j := Mtx (picture_word shift txaw (regs (if (j <? Tt)%nat then ta else tb)) (Z.of_nat j)) in
   forall q, (q < F * m)%nat ->
   slice (32 * Z.of_nat (F - 1 - q mod F)) 32 (M' ((a + Z.of_nat (q / F)) mod 2 ^ aw)) = stored (shown q)) /\
  (forall v, (forall j, (j < m)%nat -> v <> (a + Z.of_nat j) mod 2 ^ aw) -> M' v = M v).
Proof.
  intros shift txaw depth txmem txra ti Haw HM u p t0 Hon ok H1 H2 H3 H4 H5 HLen Hdepth HV E HE Hready Mtx junk st o dv n0 pos regs T HT0 HT late g Hg HTg
    N HN L Lmin raw s0 Hlink k m Hk F HF.
  assert (lk : link_ok p) by (constructor; assumption).
  assert (Hpix : 0 < p_hres p * p_vres p < 2 ^ txaw) by nia.
  assert (HVE : HV = (p_vscan p + 1) * (p_hscan p + 1)) by (unfold HV; ring).
  assert (HTg' : Z.of_nat T + 30 <= Z.of_nat late + 1 + g * ((p_vscan p + 1) * (p_hscan p + 1))) by (rewrite <- HVE; exact HTg).
  destruct (moving_link shift txaw depth txmem txra ti Haw HM u p t0 Hon lk Hpix Hdepth E HE Hready Mtx junk T HT0 HT g Hg HTg' N HN L Lmin raw s0 Hlink)
    as (D & D' & w & B & ED & P & PIC).
  change (occurrences (fun x => ot_cd (ti x)) 0 t0 + _)%nat with late in ED. rewrite <- HVE in ED.
  exists D. split; [exact B|]. split.
  { intros n Hn. apply (frame_resolution p lk w s0 raw D' 1 ltac:(lia) P). rewrite ED. rewrite Nat2Z.inj_add in Hn. fold HV.
    replace ((g + 4) * HV) with (g * HV + 4 * HV) in Hn by ring. lia. }
  intros n aw align mem ra ns i dw K Ed Bu T0 e He SV vsync_of E0 ww c addr PG a.
  assert (E1 : Z.of_nat (occurrences (fun v => cap_pix (i v)) 0 T0) = vsync_of (1 + e + 1) + Z.of_nat D' + 1).
  { rewrite ED. unfold vsync_of in *. rewrite !Nat2Z.inj_add in E0.
    replace (((g + 2 + e) * (p_vscan p + 1) + p_vs_start p) * (p_hscan p + 1)) with
      (((1 + e + 1) * (p_vscan p + 1) + p_vs_start p) * (p_hscan p + 1) + g * HV) in E0 by (unfold HV; ring). lia. }
  assert (W : forall f t1 t2, (1 + e) + 2 <= Z.of_nat f ->
    let vsync_of v := 1 + (v * (p_vscan p + 1) + p_vs_start p) * (p_hscan p + 1) in
    Z.of_nat t1 = vsync_of (Z.of_nat f - 1) + Z.of_nat D' -> Z.of_nat t2 = vsync_of (Z.of_nat f) + Z.of_nat D' ->
    collect (word_out F (pk_stream s0 raw)) (t1 + 1) (t2 - t1) =
    map (fun j => (Nat.eqb j 0, rev (map (fun q => stored (w (f * (F * m) + q)%nat)) (seq (F * j) F)))) (seq 0 m)).
  { intros f t1 t2 Hf. apply (frame_words p lk w s0 raw D' 1 ltac:(lia) P k m Hk HF). lia. }
  destruct (frame_served p lk (pk_stream s0 raw) (fun q => stored (w q)) 32 D' (1 + e) ltac:(lia) (fun q => stored_range (w q)) ltac:(lia)
    k m HF W n aw align mem ra ns i K Ed Bu T0 SV E1 ww c addr PG) as (x & z & XZ & LD & SS & MM).
  exists x, z. split; [exact XZ|]. split; [exact LD|]. split; [exact SS|]. intros M M'.
  destruct (MM M) as (f & A1 & A2 & A3). destruct (PIC f) as (ta & tb & Tt & C1 & C2 & C3 & C4 & C5 & C6).
  exists (Z.of_nat f + g), ta, tb, Tt. split; [lia|]. split; [exact C1|]. split; [exact C2|]. split; [exact C3|]. split; [exact C4|].
  split; [intros n' Hn' Hp; apply (C5 n' Hn'); [lia|exact Hp]|]. split; [|exact A3].
  intros shown q Q. etransitivity; [apply (A2 q Q)|]. fold F in Q |- *. rewrite HF, Nat2Z.id in C6. fold F in C6.
  apply stored_colour. apply C6. lia.
Qed.
Print Assumptions C125_no_tearing.

(** The same in the receiver's default mode, YCbCr 4:2:2. *)
Theorem C125_no_tearing_422 :
  forall shift txaw depth txmem txra (ti : nat -> ot_in), 0 <= txaw -> length txmem = 4%nat ->
  forall u p t0, enabled_moving shift txaw depth txmem txra ti u p t0 ->
  params_ok p -> 24 <= p_hres p -> p_hres p + 30 <= p_hscan p + 1 -> 1 <= p_vres p <= p_vscan p ->
  p_hres p < p_hs_start p -> p_vres p <= p_vs_start p < p_vs_end p -> Z.even (p_hres p) = true ->
  p_hres p * p_vres p < 2 ^ txaw -> Z.of_nat depth <= p_hres p * p_vres p ->
  let HV := (p_hscan p + 1) * (p_vscan p + 1) in
  forall E, clocks ti HV E -> (forall x, ot_ready (ti x) = true) ->
  forall Mtx junk, let st := ot_run shift txaw depth txmem txra ti in
  let o n := ot_px shift txaw Mtx (junk n) (st (E n)) (ti (E n)) in
  let dv n := ot_dv shift txaw (st (E n)) (ti (E n)) in
  let n0 := occurrences (fun x => ot_cd (ti x)) 0 t0 in
  let pos n := Z.of_nat n - Z.of_nat n0 - Z.of_nat (underflows o dv n) in
  let regs t := ini_regs (ot_ini (st t)) in
  forall T, (n0 <= T)%nat -> (forall n, (T <= n)%nat -> px_de (o n) = true -> dv n = true) ->
  let late := (n0 + underflows o dv T)%nat in
  forall g, 1 <= g -> Z.of_nat T + 30 <= Z.of_nat late + 1 + g * HV ->
  forall N, (N <= T)%nat -> forall L Lmin raw s0, link_at N o L Lmin raw s0 ->
  forall k m, (1 <= k)%nat -> let F := (2 ^ k)%nat in p_hres p * p_vres p = Z.of_nat (F * m) ->
  exists D, (forall k, (k < 3)%nat -> (L k / 10 + 7 < D <= L k / 10 + 15)%nat) /\
  forall n aw align mem ra ns (i : nat -> cap_in), let dw := 16 * Z.of_nat F in
  forall K Ed B T0 e, 0 <= e -> serving n F 16 aw dw align mem ra ns i (ycc_pk_stream F s0 raw) K Ed B m T0 ->
  let vsync_of v := 1 + (v * (p_vscan p + 1) + p_vs_start p) * (p_hscan p + 1) in
  Z.of_nat (N + occurrences (fun v => cap_pix (i v)) 0 T0) = vsync_of (g + 2 + e) + Z.of_nat (late + D) + 1 ->
  forall w c addr, programs n F 16 aw dw align mem ra ns i K Ed B T0 w c addr ->
  let a := (addr / 2 ^ align) mod 2 ^ aw in
  exists x z, (w < x < z)%nat /\ (forall t, (w < t < z)%nat -> Z.odd (slot_status n F 16 aw dw align mem ra ns i t c) = true) /\
  slot_status n F 16 aw dw align mem ra ns i z c = 2 /\
  forall M, let M' := after M (collect (c_write n F 16 aw dw align mem ra (dma_init ns) i) x (z - x)) in
  exists f ta tb Tt, g + e + 3 <= f /\ (Tt <= depth)%nat /\ (u <= ta)%nat /\ (u <= tb)%nat /\
  (forall n', (n0 <= n')%nat -> 5 <= f -> pos n' <= (f - 4) * HV -> (E n' <= ta)%nat) /\
  (forall n', (n0 <= n')%nat -> pos n' <= (f - 3) * HV -> (E n' <= tb)%nat) /\
  (let shown j := Mtx (picture_word shift txaw (regs (if (j <? Tt)%nat then ta else tb)) (Z.of_nat j)) in
   forall q, (q < F * m)%nat ->
   slice (16 * Z.of_nat (F - 1 - q mod F)) 16 (M' ((a + Z.of_nat (q / F)) mod 2 ^ aw)) = stored_422 shown q) /\
  (forall v, (forall j, (j < m)%nat -> v <> (a + Z.of_nat j) mod 2 ^ aw) -> M' v = M v).
Proof.
  intros shift txaw depth txmem txra ti Haw HM u p t0 Hon ok H1 H2 H3 H4 H5 EV HLen Hdepth HV E HE Hready Mtx junk st o dv n0 pos regs T HT0 HT late g Hg HTg
    N HN L Lmin raw s0 Hlink k m Hk F HF.
  assert (lk : link_ok p) by (constructor; assumption).
  assert (Hpix : 0 < p_hres p * p_vres p < 2 ^ txaw) by nia.
  assert (HVE : HV = (p_vscan p + 1) * (p_hscan p + 1)) by (unfold HV; ring).
  assert (HTg' : Z.of_nat T + 30 <= Z.of_nat late + 1 + g * ((p_vscan p + 1) * (p_hscan p + 1))) by (rewrite <- HVE; exact HTg).
  destruct (moving_link shift txaw depth txmem txra ti Haw HM u p t0 Hon lk Hpix Hdepth E HE Hready Mtx junk T HT0 HT g Hg HTg' N HN L Lmin raw s0 Hlink)
    as (D & D' & w & B & ED & P & PIC).
  change (occurrences (fun x => ot_cd (ti x)) 0 t0 + _)%nat with late in ED. rewrite <- HVE in ED.
  exists D. split; [exact B|].
  intros n aw align mem ra ns i dw K Ed Bu T0 e He SV vsync_of E0 ww c addr PG a.
  assert (E1 : Z.of_nat (occurrences (fun v => cap_pix (i v)) 0 T0) = vsync_of (1 + e + 1) + Z.of_nat D' + 1).
  { rewrite ED. unfold vsync_of in *. rewrite !Nat2Z.inj_add in E0.
    replace (((g + 2 + e) * (p_vscan p + 1) + p_vs_start p) * (p_hscan p + 1)) with
      (((1 + e + 1) * (p_vscan p + 1) + p_vs_start p) * (p_hscan p + 1) + g * HV) in E0 by (unfold HV; ring). lia. }
  assert (W : forall f t1 t2, (1 + e) + 2 <= Z.of_nat f ->
    let vsync_of v := 1 + (v * (p_vscan p + 1) + p_vs_start p) * (p_hscan p + 1) in
    Z.of_nat t1 = vsync_of (Z.of_nat f - 1) + Z.of_nat D' -> Z.of_nat t2 = vsync_of (Z.of_nat f) + Z.of_nat D' ->
    collect (word_out F (ycc_pk_stream F s0 raw)) (t1 + 1) (t2 - t1) =
    map (fun j => (Nat.eqb j 0, rev (map (fun q => stored_422 w (f * (F * m) + q)%nat) (seq (F * j) F)))) (seq 0 m)).
  { intros f t1 t2 Hf. apply (packed_words p lk (ycc_pk_stream F s0 raw) D' 11 ltac:(lia) (stored_422 w) 1 ltac:(lia)
      (ycc_vs p w s0 raw D' 1 P F) (ycc_px p lk EV w s0 raw D' 1 ltac:(lia) P F) k m Hk HF). lia. }
  destruct (frame_served p lk (ycc_pk_stream F s0 raw) (stored_422 w) 16 D' (1 + e) ltac:(lia) (stored_422_range w) ltac:(lia)
    k m HF W n aw align mem ra ns i K Ed Bu T0 SV E1 ww c addr PG) as (x & z & XZ & LD & SS & MM).
  exists x, z. split; [exact XZ|]. split; [exact LD|]. split; [exact SS|]. intros M M'.
  destruct (MM M) as (f & A1 & A2 & A3). destruct (PIC f) as (ta & tb & Tt & C1 & C2 & C3 & C4 & C5 & C6).
  exists (Z.of_nat f + g), ta, tb, Tt. split; [lia|]. split; [exact C1|]. split; [exact C2|]. split; [exact C3|]. split; [exact C4|].
  split; [intros n' Hn' Hp; apply (C5 n' Hn'); [lia|exact Hp]|]. split; [|exact A3].
  intros shown q Q. etransitivity; [apply (A2 q Q)|]. fold F in Q |- *. rewrite HF, Nat2Z.id in C6. fold F in C6.
  assert (EF : Nat.even (F * m) = true).
  { unfold F. replace k with (S (k - 1)) by lia. cbn [Nat.pow]. rewrite !Nat.even_mul. reflexivity. }
  apply (stored_422_at w shown (f * (F * m)) (F * m) q); [rewrite Nat.even_mul, EF; apply orb_true_r|exact EF|exact Q|].
  intros j J. apply C6. lia.
Qed.
Print Assumptions C125_no_tearing_422.

(** After a change of the registers to [R] during frame [f0], every slot loaded once frame [f0 + 5] has begun to arrive
    holds the new picture, and nothing but it. *)
Theorem C125_new_picture :
  forall shift txaw depth txmem txra (ti : nat -> ot_in), 0 <= txaw -> length txmem = 4%nat ->
  forall u p t0, enabled_moving shift txaw depth txmem txra ti u p t0 ->
  params_ok p -> 24 <= p_hres p -> p_hres p + 30 <= p_hscan p + 1 -> 1 <= p_vres p <= p_vscan p ->
  p_hres p < p_hs_start p -> p_vres p <= p_vs_start p < p_vs_end p ->
  p_hres p * p_vres p < 2 ^ txaw -> Z.of_nat depth <= p_hres p * p_vres p ->
  let HV := (p_hscan p + 1) * (p_vscan p + 1) in
  forall E, clocks ti HV E -> (forall x, ot_ready (ti x) = true) ->
  forall Mtx junk, let st := ot_run shift txaw depth txmem txra ti in
  let o n := ot_px shift txaw Mtx (junk n) (st (E n)) (ti (E n)) in
  let dv n := ot_dv shift txaw (st (E n)) (ti (E n)) in
  let n0 := occurrences (fun x => ot_cd (ti x)) 0 t0 in
  let pos n := Z.of_nat n - Z.of_nat n0 - Z.of_nat (underflows o dv n) in
  let regs t := ini_regs (ot_ini (st t)) in
  forall T, (n0 <= T)%nat -> (forall n, (T <= n)%nat -> px_de (o n) = true -> dv n = true) ->
  let late := (n0 + underflows o dv T)%nat in
  forall g, 1 <= g -> Z.of_nat T + 30 <= Z.of_nat late + 1 + g * HV ->
  forall N, (N <= T)%nat -> forall L Lmin raw s0, link_at N o L Lmin raw s0 ->
  forall k m, (1 <= k)%nat -> let F := (2 ^ k)%nat in p_hres p * p_vres p = Z.of_nat (F * m) ->
  exists D, (forall k, (k < 3)%nat -> (L k / 10 + 7 < D <= L k / 10 + 15)%nat) /\
  forall n aw align mem ra ns (i : nat -> cap_in), let dw := 32 * Z.of_nat F in
  forall K Ed B T0 e, 0 <= e -> serving n F 32 aw dw align mem ra ns i (pk_stream s0 raw) K Ed B m T0 ->
  let vsync_of v := 1 + (v * (p_vscan p + 1) + p_vs_start p) * (p_hscan p + 1) in
  Z.of_nat (N + occurrences (fun v => cap_pix (i v)) 0 T0) = vsync_of (g + 2 + e) + Z.of_nat (late + D) + 1 ->
  forall w c addr, programs n F 32 aw dw align mem ra ns i K Ed B T0 w c addr ->
  let a := (addr / 2 ^ align) mod 2 ^ aw in
  exists x z, (w < x < z)%nat /\ (forall t, (w < t < z)%nat -> Z.odd (slot_status n F 32 aw dw align mem ra ns i t c) = true) /\
  slot_status n F 32 aw dw align mem ra ns i z c = 2 /\
  forall M, let M' := after M (collect (c_write n F 32 aw dw align mem ra (dma_init ns) i) x (z - x)) in
  forall wr R, (forall x, (wr <= x)%nat -> regs x = R) ->
  forall f0 n1, (n0 <= n1)%nat -> (wr <= E n1)%nat -> pos n1 <= (f0 + 1) * HV -> f0 + 5 <= g + e + 3 -> 0 <= f0 ->
  (forall q, (q < F * m)%nat ->
   slice (32 * Z.of_nat (F - 1 - q mod F)) 32 (M' ((a + Z.of_nat (q / F)) mod 2 ^ aw)) = stored (Mtx (picture_word shift txaw R (Z.of_nat q)))) /\
  (forall v, (forall j, (j < m)%nat -> v <> (a + Z.of_nat j) mod 2 ^ aw) -> M' v = M v).
Proof.
  intros shift txaw depth txmem txra ti Haw HM u p t0 Hon ok H1 H2 H3 H4 H5 HLen Hdepth HV E HE Hready Mtx junk st o dv n0 pos regs T HT0 HT late g Hg HTg
    N HN L Lmin raw s0 Hlink k m Hk F HF.
  destruct (C125_no_tearing shift txaw depth txmem txra ti Haw HM u p t0 Hon ok H1 H2 H3 H4 H5 HLen Hdepth E HE Hready Mtx junk T HT0 HT g Hg HTg
    N HN L Lmin raw s0 Hlink k m Hk HF) as (D & B & _ & P).
  exists D. split; [exact B|]. intros n aw align mem ra ns i dw K Ed Bu T0 e He SV vsync_of E0 ww c addr PG a.
  destruct (P n aw align mem ra ns i K Ed Bu T0 e He SV E0 ww c addr PG) as (x & z & XZ & LD & SS & MM).
  exists x, z. split; [exact XZ|]. split; [exact LD|]. split; [exact SS|]. intros M M' wr R HR f0 n1 Hn1 Hw Hp Hf Hf0.
  destruct (MM M) as (f & ta & tb & Tt & A1 & A2 & A3 & A4 & A5 & A6 & A7 & A8).
  assert (HP : 0 < HV) by (unfold HV; nia).
  assert (TA : (E n1 <= ta)%nat) by (apply (A5 n1 Hn1); [lia|]; etransitivity; [exact Hp|]; nia).
  assert (TB : (E n1 <= tb)%nat) by (apply (A6 n1 Hn1); etransitivity; [exact Hp|]; nia).
  split; [|exact A8]. intros q Q. etransitivity; [exact (A7 q Q)|].
  assert (SH : forall j, ini_regs (ot_ini (ot_run shift txaw depth txmem txra ti (if (j <? Tt)%nat then ta else tb))) = R)
    by (intros j; apply HR; destruct (j <? Tt)%nat; lia).
  unfold regs, st. cbv zeta beta. rewrite SH. reflexivity.
Qed.
Print Assumptions C125_new_picture.

Theorem C125_new_picture_422 :
  forall shift txaw depth txmem txra (ti : nat -> ot_in), 0 <= txaw -> length txmem = 4%nat ->
  forall u p t0, enabled_moving shift txaw depth txmem txra ti u p t0 ->
  params_ok p -> 24 <= p_hres p -> p_hres p + 30 <= p_hscan p + 1 -> 1 <= p_vres p <= p_vscan p ->
  p_hres p < p_hs_start p -> p_vres p <= p_vs_start p < p_vs_end p -> Z.even (p_hres p) = true ->
  p_hres p * p_vres p < 2 ^ txaw -> Z.of_nat depth <= p_hres p * p_vres p ->
  let HV := (p_hscan p + 1) * (p_vscan p + 1) in
  forall E, clocks ti HV E -> (forall x, ot_ready (ti x) = true) ->
  forall Mtx junk, let st := ot_run shift txaw depth txmem txra ti in
  let o n := ot_px shift txaw Mtx (junk n) (st (E n)) (ti (E n)) in
  let dv n := ot_dv shift txaw (st (E n)) (ti (E n)) in
  let n0 := occurrences (fun x => ot_cd (ti x)) 0 t0 in
  let pos n := Z.of_nat n - Z.of_nat n0 - Z.of_nat (underflows o dv n) in
  let regs t := ini_regs (ot_ini (st t)) in
  forall T, (n0 <= T)%nat -> (forall n, (T <= n)%nat -> px_de (o n) = true -> dv n = true) ->
  let late := (n0 + underflows o dv T)%nat in
  forall g, 1 <= g -> Z.of_nat T + 30 <= Z.of_nat late + 1 + g * HV ->
  forall N, (N <= T)%nat -> forall L Lmin raw s0, link_at N o L Lmin raw s0 ->
  forall k m, (1 <= k)%nat -> let F := (2 ^ k)%nat in p_hres p * p_vres p = Z.of_nat (F * m) ->
  exists D, (forall k, (k < 3)%nat -> (L k / 10 + 7 < D <= L k / 10 + 15)%nat) /\
  forall n aw align mem ra ns (i : nat -> cap_in), let dw := 16 * Z.of_nat F in
  forall K Ed B T0 e, 0 <= e -> serving n F 16 aw dw align mem ra ns i (ycc_pk_stream F s0 raw) K Ed B m T0 ->
  let vsync_of v := 1 + (v * (p_vscan p + 1) + p_vs_start p) * (p_hscan p + 1) in
  Z.of_nat (N + occurrences (fun v => cap_pix (i v)) 0 T0) = vsync_of (g + 2 + e) + Z.of_nat (late + D) + 1 ->
  forall w c addr, programs n F 16 aw dw align mem ra ns i K Ed B T0 w c addr ->
  let a := (addr / 2 ^ align) mod 2 ^ aw in
  exists x z, (w < x < z)%nat /\ (forall t, (w < t < z)%nat -> Z.odd (slot_status n F 16 aw dw align mem ra ns i t c) = true) /\
  slot_status n F 16 aw dw align mem ra ns i z c = 2 /\
  forall M, let M' := after M (collect (c_write n F 16 aw dw align mem ra (dma_init ns) i) x (z - x)) in
  forall wr R, (forall x, (wr <= x)%nat -> regs x = R) ->
  forall f0 n1, (n0 <= n1)%nat -> (wr <= E n1)%nat -> pos n1 <= (f0 + 1) * HV -> f0 + 5 <= g + e + 3 -> 0 <= f0 ->
  (forall q, (q < F * m)%nat ->
   slice (16 * Z.of_nat (F - 1 - q mod F)) 16 (M' ((a + Z.of_nat (q / F)) mod 2 ^ aw)) = stored_422 (fun j => Mtx (picture_word shift txaw R (Z.of_nat j))) q) /\
  (forall v, (forall j, (j < m)%nat -> v <> (a + Z.of_nat j) mod 2 ^ aw) -> M' v = M v).
Proof.
  intros shift txaw depth txmem txra ti Haw HM u p t0 Hon ok H1 H2 H3 H4 H5 EV HLen Hdepth HV E HE Hready Mtx junk st o dv n0 pos regs T HT0 HT late g Hg HTg
    N HN L Lmin raw s0 Hlink k m Hk F HF.
  destruct (C125_no_tearing_422 shift txaw depth txmem txra ti Haw HM u p t0 Hon ok H1 H2 H3 H4 H5 EV HLen Hdepth E HE Hready Mtx junk T HT0 HT g Hg HTg
    N HN L Lmin raw s0 Hlink k m Hk HF) as (D & B & P).
  exists D. split; [exact B|]. intros n aw align mem ra ns i dw K Ed Bu T0 e He SV vsync_of E0 ww c addr PG a.
  destruct (P n aw align mem ra ns i K Ed Bu T0 e He SV E0 ww c addr PG) as (x & z & XZ & LD & SS & MM).
  exists x, z. split; [exact XZ|]. split; [exact LD|]. split; [exact SS|]. intros M M' wr R HR f0 n1 Hn1 Hw Hp Hf Hf0.
  destruct (MM M) as (f & ta & tb & Tt & A1 & A2 & A3 & A4 & A5 & A6 & A7 & A8).
  assert (HP : 0 < HV) by (unfold HV; nia).
  assert (TA : (E n1 <= ta)%nat) by (apply (A5 n1 Hn1); [lia|]; etransitivity; [exact Hp|]; nia).
  assert (TB : (E n1 <= tb)%nat) by (apply (A6 n1 Hn1); etransitivity; [exact Hp|]; nia).
  split; [|exact A8]. intros q Q. etransitivity; [exact (A7 q Q)|].
  assert (SH : forall j, ini_regs (ot_ini (ot_run shift txaw depth txmem txra ti (if (j <? Tt)%nat then ta else tb))) = R)
    by (intros j; apply HR; destruct (j <? Tt)%nat; lia).
  unfold regs. unfold stored_422. cbv zeta beta. unfold st. rewrite !SH. reflexivity.
Qed.
Print Assumptions C125_new_picture_422.

(** * The hypotheses can be met *)
(** The receiver's side, for every received stream: as in [ex_capturing], and software that writes 64 to the address
    register of slot 0 and then loads the slot. *)
Definition ex_str (X : nat -> pk_in) (m w t : nat) : cap_in :=
  {| cap_pix := Nat.eqb (t mod 4) 0; cap_sys := true; cap_pk := X (t / 4)%nat; cap_mready := Nat.odd t;
     cap_wbusy := false; cap_size := 8 * Z.of_nat m;
     cap_sw := if Nat.eqb t w then SwStatus 0 1 else if Nat.eqb (t + 2) w then SwAddr 0 64 else SwNone; cap_mp := 1; cap_mc := 0 |}.
Example ex_serving : forall (X : nat -> pk_in) k lw m N0, (1 <= k)%nat -> (1 <= N0)%nat ->
  let T0 := (4 * N0 - 3)%nat in let i := ex_str X m (T0 + 20) in let aw := Z.of_nat m + 1 in let F := (2 ^ k)%nat in
  serving 4 F lw aw (lw * Z.of_nat F) 3 (repeat (false, []) 16) 0 2 i X 1 0 6 m T0 /\
  programs 4 F lw aw (lw * Z.of_nat F) 3 (repeat (false, []) 16) 0 2 i 1 0 6 T0 (T0 + 20) 0 64 /\ occurrences (fun v => cap_pix (i v)) 0 T0 = N0.
Proof.
  intros X k lw m N0 K1 HN T0 i aw F.
  assert (PE : forall a L, occurrences (fun t => cap_pix (i t)) a L = occurrences (fun t => cap_pix (ex_live_in t)) a L) by reflexivity.
  assert (SE : forall a L, occurrences (fun t => cap_sys (i t)) a L = L) by (intros; apply all_edges).
  assert (IDLE : forall w, (w <= T0 + 20)%nat -> forall j, slot_status 4 F lw aw (lw * Z.of_nat F) 3 (repeat (false, []) 16) 0 2 i w j = 0).
  { intros w Hw. apply (idle_at_first 4 F lw aw (lw * Z.of_nat F) 3 (repeat (false, []) 16) 0 2 i w).
    intros t j v T. cbn [cap_sw i ex_str]. destruct (Nat.eqb_spec t (T0 + 20)); [lia|]. destruct (Nat.eqb (t + 2) (T0 + 20)); discriminate. }
  destruct (ex_capturing X k lw m N0 K1 HN) as [CG CNT].
  split; [|split; [|exact CNT]].
  - destruct CG as [N HM Haw HX Hsys Hpix H1 H2 H3 HD TW HW LD SZ].
    constructor; try assumption; try lia.
    + intros t _. exact (SZ (T0 + 21)%nat ltac:(unfold T0; lia)).
    + intros t j _ L. cbn [cap_sw i ex_str]. destruct (Nat.eqb_spec t (T0 + 20)) as [TE|]; [rewrite (IDLE t) in L by lia; discriminate|].
      destruct (Nat.eqb_spec (t + 2) (T0 + 20)) as [TE|]; [rewrite (IDLE t) in L by lia; discriminate|exact I].
  - constructor; try lia.
    + rewrite SE. lia.
    + split; [reflexivity|]. exists 1. cbn [cap_sw i ex_str]. rewrite Nat.eqb_refl. auto.
    + exists (T0 + 18)%nat. split; [lia|]. split; [reflexivity|]. split; [|split].
      * cbn [cap_sw i ex_str]. destruct (Nat.eqb_spec (T0 + 18) (T0 + 20)); [lia|]. replace (T0 + 18 + 2)%nat with (T0 + 20)%nat by lia. rewrite Nat.eqb_refl. reflexivity.
      * intros t T. rewrite IDLE by lia. reflexivity.
      * intros t v T _. cbn [cap_sw i ex_str]. destruct (Nat.eqb_spec t (T0 + 20)); [lia|]. destruct (Nat.eqb_spec (t + 2) (T0 + 20)); [lia|discriminate].
Qed.

(** The transmitter's side: the output of [ex_sw], whose base register changes from 400 to 800 at instant 500 (frame 1).
    It underflows nine times, not after clock 46. *)
Lemma ex_sw_period : forall t, (1500 <= t)%nat -> ex_sw (t + 2240) = ex_sw t.
Proof.
  apply periodic; [vm_compute; reflexivity|]. intros t T. unfold ex_sw_in, ex_ot_in. cbn [ot_sw ot_mem].
  replace (Nat.eqb (t + 2240) 500) with false by (symmetry; apply Nat.eqb_neq; lia). replace (Nat.eqb t 500) with false by (symmetry; apply Nat.eqb_neq; lia).
  replace (t + 2240 <? 10)%nat with false by (symmetry; apply Nat.ltb_ge; lia). replace (t <? 10)%nat with false by (symmetry; apply Nat.ltb_ge; lia).
  replace (Nat.eqb (t + 2240) 10) with false by (symmetry; apply Nat.eqb_neq; lia). replace (Nat.eqb t 10) with false by (symmetry; apply Nat.eqb_neq; lia).
  replace ((t + 2240 + 2) mod 4)%nat with ((t + 2) mod 4)%nat; [reflexivity|].
  replace (t + 2240 + 2)%nat with (t + 2 + 560 * 4)%nat by lia. rewrite Nat.mod_add by lia. reflexivity.
Qed.
Definition ex_sw_fed (s : ot_st) (t : nat) : bool := (t <? 47)%nat || negb (tg_de (vt_valid (ot_vt 2 8 s)) (ot_tg s)) || ot_dv 2 8 s (ex_sw_in t).
Lemma ex_sw_all : forall t, ex_sw_fed (ex_sw t) t = true.
Proof.
  assert (B : forall t, (t < 3740)%nat -> ex_sw_fed (ex_sw t) t = true).
  { intros t T. unfold ex_sw, ot_run.
    apply (scan_sound _ _ (ot_step 2 8 8) ex_sw_in ex_sw_fed (ot_init (repeat [] 4) 0) 3740 0); [|exact T]. vm_compute. reflexivity. }
  intros t. induction t as [t IH] using lt_wf_ind. destruct (Nat.lt_ge_cases t 3740) as [L|L]; [apply B; exact L|].
  specialize (IH (t - 2240)%nat ltac:(lia)). replace t with ((t - 2240) + 2240)%nat by lia. rewrite ex_sw_period by lia.
  unfold ex_sw_fed in *. rewrite (proj2 (Nat.ltb_ge _ _)) in IH by lia. rewrite (proj2 (Nat.ltb_ge _ _)) by lia. exact IH.
Qed.
Example C125_case : forall Mtx junk,
  let o n := ot_px 2 8 Mtx (junk n) (ex_sw n) (ex_sw_in n) in
  let raw n k := delayed (tx_word o k) (ex_L k) n in
  exists N0, let T0 := (4 * N0 - 3)%nat in let i := ex_str (pk_stream rx_init raw) 12 (T0 + 20) in
  exists x z, slot_status 4 4 32 13 128 3 (repeat (false, []) 16) 0 2 i z 0 = 2 /\
  forall M, let M' := after M (collect (c_write 4 4 32 13 128 3 (repeat (false, []) 16) 0 (dma_init 2) i) x (z - x)) in
  forall q, (q < 48)%nat -> slice (32 * Z.of_nat (3 - q mod 4)) 32 (M' (8 + Z.of_nat (q / 4))) = stored (Mtx (200 + Z.of_nat q)).
Proof.
  intros Mtx junk o raw. destruct ex_sw_on as [ON RR]. destruct ex_sw_hyps as (CL & RD & OK & PX & DP). destruct ex_mode_ok as (_ & M1 & M2 & M3 & M4 & M5 & M6).
  set (dv := fun n => ot_dv 2 8 (ex_sw n) (ex_sw_in n)).
  assert (FED : forall n, (47 <= n)%nat -> px_de (o n) = true -> dv n = true).
  { intros n Hn DE. pose proof (ex_sw_all n) as A. unfold ex_sw_fed in A. rewrite (proj2 (Nat.ltb_ge _ _)) in A by lia.
    change (tg_de (vt_valid (ot_vt 2 8 (ex_sw n))) (ot_tg (ex_sw n)) = true) in DE. rewrite DE in A. exact A. }
  assert (UF : forall k, (k <= 600)%nat -> (47 <= k)%nat -> underflows o dv k = 9%nat).
  { assert (U47 : underflows o dv 47 = 9%nat).
    { unfold underflows. rewrite (occurrences_ext _ (fun m => tg_de (vt_valid (ot_vt 2 8 (ex_sw m))) (ot_tg (ex_sw m)) && negb (dv m))) by reflexivity. vm_compute. reflexivity. }
    intros k K1 K2. replace k with (47 + (k - 47))%nat by lia. unfold underflows. rewrite occ_app. unfold underflows in U47. rewrite U47.
    rewrite (occ_zero _ (0 + 47)); [lia|]. intros t T. destruct (px_de (o t)) eqn:DE; [|reflexivity]. rewrite (FED t ltac:(lia) DE). reflexivity. }
  assert (LK : link_at 0 o ex_L 0 raw rx_init).
  { apply link_at_0. split; [intros [|[|[|k]]] Hk; cbn; lia|]. split; [intros k Hk; apply delayed_ok|]. intros k Hk. apply ex_hyp. exact Hk. }
  assert (N14 : occurrences (fun x => ot_cd (ex_sw_in x)) 0 14 = 14%nat) by reflexivity.
  assert (CAP := C125_new_picture 2 8 8 (repeat [] 4) 0 ex_sw_in ltac:(lia) eq_refl 11 ex_mode 14 ON OK M1 M2 M3 M4 M5 (proj2 PX) DP (fun n => n) CL RD Mtx junk
    47%nat ltac:(rewrite N14; lia) FED 1 ltac:(lia)).
  cbv zeta in CAP. rewrite N14 in CAP. change (underflows _ _ 47) with (underflows o dv 47) in CAP. rewrite (UF 47%nat) in CAP by lia.
  specialize (CAP ltac:(cbn; lia) 0%nat ltac:(lia) ex_L 0%nat raw rx_init LK 2%nat 12%nat ltac:(lia) M6).
  destruct CAP as (D & _ & CAP).
  exists (Z.to_nat (1 + (5 * (p_vscan ex_mode + 1) + p_vs_start ex_mode) * (p_hscan ex_mode + 1)) + (23 + D) + 1)%nat.
  set (N0 := (_ + _ + 1)%nat). intros T0 i.
  destruct (ex_serving (pk_stream rx_init raw) 2 32 12 N0 ltac:(lia) ltac:(unfold N0; lia)) as (SV & PG & CN).
  specialize (CAP 4 13 3 (repeat (false, []) 16) 0 2%nat i 1%nat 0%nat 6%nat T0 2 ltac:(lia) SV).
  assert (CN' : occurrences (fun v => cap_pix (i v)) 0 T0 = N0) by exact CN. rewrite CN' in CAP.
  assert (NE : Z.of_nat (0 + N0) = 1 + ((1 + 2 + 2) * (p_vscan ex_mode + 1) + p_vs_start ex_mode) * (p_hscan ex_mode + 1) + Z.of_nat (14 + 9 + D) + 1).
  { unfold N0. rewrite !Nat2Z.inj_add, Z2Nat.id by (cbn; lia). cbn [p_vscan p_vs_start p_hscan ex_mode]. lia. }
  destruct (CAP NE
    (T0 + 20)%nat 0%nat 64 PG) as (x & z & XZ & _ & SS & MM).
  exists x, z. split; [exact SS|]. intros M M' q Q.
  destruct (MM M 501%nat ex_sw_regs RR 1 501%nat ltac:(lia) ltac:(lia)) as [G _]; try lia.
  { change (underflows _ _ 501) with (underflows o dv 501). rewrite (UF 501%nat) by lia. cbn. lia. }
  specialize (G q ltac:(cbn; lia)). 
  replace ((64 / 2 ^ 3) mod 2 ^ 13 + Z.of_nat (q / 2 ^ 2)) with (8 + Z.of_nat (q / 4)) in G by reflexivity.
  assert (Q4 : (q / 4 < 12)%nat) by (apply Nat.div_lt_upper_bound; lia).
  rewrite Z.mod_small in G by (change (2 ^ 13) with 8192; lia).
  unfold picture_word in G. change (nth 8 ex_sw_regs 0 / 2 ^ 2) with 200 in G. rewrite Z.mod_small in G by (change (2 ^ 8) with 256; lia).
  exact G.
Qed.
