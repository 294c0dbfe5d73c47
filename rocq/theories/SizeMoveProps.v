(** C126: the buffer size of C119 and the lock of C116 for moving pictures. *)
From Coq Require Import ZArith List Bool Lia Arith.
From Verif Require Import Hdl Trace CdcProofs AnalysisModel TimingModel TimingSpec TimingProofs VideoOutModel VideoOutProofs
  HdmiModel HdmiProofs LinkModel LinkProofs LinkProps InDmaModel FifoModel FifoProofs FifoProps CaptureModel CaptureProofs CaptureProps
  FrameProofs FrameProps InDmaProofs InDmaProps GenlockProps PhyModel PhyProps StartupProofs StartupProps OutTopModel OutTopProofs OutTopProps
  OutSwapProps TearProps CaptureRateProofs CaptureLiveProofs CaptureLiveProps FrameLiveProofs FairProofs FairProps SlotRegProps CscModel CscSpec YccPathModel YccPathProps YccLinkModel YccLinkProps
  OutLiveProps StreamLinkProofs StreamLinkProps SizingProofs SizingProps SizeMoveProofs
  CharSyncModel CharSyncSpec CharSyncProofs ChanSyncModel ChanSyncProofs SerialModel SerialProps GearModel GearProps SerialLinkProps ClockModel ClockProps JoinProps LockProps.
Import ListNotations.
Open Scope Z_scope.

Section Sizing.
Variables (shift aw : Z) (depth : nat) (mem : list (list Z)) (ra : Z) (i : nat -> ot_in).
Hypothesis Haw : 0 <= aw.
Hypothesis HM : length mem = 4%nat.
Variables (u : nat) (p : fparam) (t0 : nat).
Hypothesis Hon : enabled_moving shift aw depth mem ra i u p t0.
Hypothesis ok : params_ok p.
Hypothesis Hpix : 0 < p_hres p * p_vres p < 2 ^ aw.
Variable E : nat -> nat.
Hypothesis HE : clocks i ((p_hscan p + 1) * (p_vscan p + 1)) E.
Hypothesis Hready : forall x, ot_ready (i x) = true.
Variables (M : Z -> Z) (junk : nat -> Z).
Let st := ot_run shift aw depth mem ra i.
Let o n := ot_px shift aw M (junk n) (st (E n)) (i (E n)).
Let dv n := ot_dv shift aw (st (E n)) (i (E n)).
Let n0 := occurrences (fun x => ot_cd (i x)) 0 t0.
Let asked n := match ot_addr shift aw depth (st (E n)) (i (E n)) with Some _ => true | None => false end.
Let got n := px_de (o n) && dv n.
Let sT k := ot_vt shift aw (st (E (n0 + k))).
Let iT k := ot_ti shift aw (st (E (n0 + k))) (i (E (n0 + k))).

Lemma mv_H0 : vt_tg (sT 0) = tg_init /\ vt_dr (sT 0) = dr_init /\ vt_reads (sT 0) = [].
Proof.
  destruct (moving_start shift aw depth mem ra i u p t0 Haw HM Hon) as (F1 & F2 & F3 & F4).
  exact (sw_H0 shift aw depth mem ra i Haw HM p t0 F1 F2 F3 F4 ok Hpix E HE).
Qed.
Lemma mv_HS : forall k, vt_tg (sT (S k)) = vt_tg (vt_step aw depth (sT k) (iT k)) /\
  vt_dr (sT (S k)) = vt_dr (vt_step aw depth (sT k) (iT k)) /\ vt_reads (sT (S k)) = vt_reads (vt_step aw depth (sT k) (iT k)).
Proof.
  destruct (moving_start shift aw depth mem ra i u p t0 Haw HM Hon) as (F1 & F2 & F3 & F4).
  exact (sw_HS shift aw depth mem ra i Haw HM p t0 F1 F2 F3 F4 ok Hpix E HE).
Qed.
Lemma mv_head : forall k, vp_t (vt_head (sT k) (iT k)) = p /\ vp_length (vt_head (sT k) (iT k)) = p_hres p * p_vres p /\ vt_valid (sT k) = true.
Proof.
  destruct (moving_start shift aw depth mem ra i u p t0 Haw HM Hon) as (F1 & F2 & F3 & F4).
  exact (sw_thead shift aw depth mem ra i Haw HM p t0 F1 F2 F3 F4 ok Hpix E HE).
Qed.
Lemma mv_same : forall k, asked (n0 + k)%nat = m_issue aw depth sT iT k /\ got (n0 + k)%nat = m_take sT iT k /\ dv (n0 + k)%nat = vi_dv (vt_vi (sT k) (iT k)).
Proof.
  intros k. split; [reflexivity|]. split; [|reflexivity]. destruct (mv_head k) as (_ & _ & V).
  unfold got, m_take, o, dv, ot_px, ot_dv, vt_px. cbv zeta. cbn [tx_px px_de]. fold (sT k) (iT k). cbn [vt_vi vi_valid]. rewrite V. reflexivity.
Qed.

Variables (lat s : nat).
Let frame := Z.to_nat ((p_hscan p + 1) * (p_vscan p + 1)).
Hypothesis Hmem : memory_keeps_up n0 frame lat s (fun n => ot_mem (i (E n))) (fun n => ot_ret (i (E n))) asked got.
Hypothesis Hlat : (1 <= lat)%nat.
Hypothesis Hdepth : (lat + s + 2 <= depth)%nat.
Lemma mv_no_underflow : forall (gain K : nat), (0 < gain)%nat -> Z.of_nat gain <= p_hres p * p_vres p ->
  p_hres p * p_vres p + Z.of_nat (s + 2 + gain) <= (p_hscan p + 1) * (p_vscan p + 1) -> (depth <= K * gain)%nat ->
  forall n, (n0 + K * frame <= n)%nat -> dv n = true.
Proof.
  intros gain K G1 G2 G3 G4 n N. destruct Hmem as [M1 M2]. replace n with (n0 + (n - n0))%nat by lia.
  rewrite (proj2 (proj2 (mv_same (n - n0)))).
  assert (SH : forall f g, (forall k, f (n0 + k)%nat = g k) -> forall a k, occurrences f (n0 + a) k = occurrences g a k).
  { intros f g H a k. induction k as [|k IH]; [reflexivity|]. cbn [occurrences]. rewrite IH, <- (H (a + k)%nat), Nat.add_assoc. reflexivity. }
  apply (core_there aw depth p (p_hres p * p_vres p) sT iT Haw ltac:(lia) ok eq_refl mv_H0 mv_HS mv_head (fun m => Hready _) lat s K) with (c := gain).
  - intros m. rewrite <- (SH (fun x => negb (ot_mem (i (E x)))) (m_refuse iT) (fun k => eq_refl) m). apply (M1 (n0 + m)%nat). lia.
  - intros m k MK OC. apply (M2 (n0 + m)%nat (n0 + k)%nat); [lia|lia|].
    replace (n0 + k - n0)%nat with k by lia. replace (S (n0 + m) - n0)%nat with (S m) by lia.
    replace n0 with (n0 + 0)%nat by lia. rewrite (SH got (m_take sT iT) (fun k => proj1 (proj2 (mv_same k))) 0%nat).
    rewrite (SH asked (m_issue aw depth sT iT) (fun k => proj1 (mv_same k)) 0%nat). exact OC.
  - exact Hlat.
  - exact Hdepth.
  - lia.
  - lia.
  - exact G1.
  - exact G4.
  - fold frame. lia.
Qed.
End Sizing.

(** While software moves the picture (C113), the buffer size of C119 rules out underflows as
    well: the commands go on from one picture to the next without a pause. *)
Theorem C126_never_underflows :
  forall shift aw depth mem ra (i : nat -> ot_in), 0 <= aw -> length mem = 4%nat ->
  forall u p t0, enabled_moving shift aw depth mem ra i u p t0 ->
  params_ok p -> 0 < p_hres p * p_vres p < 2 ^ aw ->
  forall E, clocks i ((p_hscan p + 1) * (p_vscan p + 1)) E -> (forall x, ot_ready (i x) = true) ->
  forall M junk, let st := ot_run shift aw depth mem ra i in
  let o n := ot_px shift aw M (junk n) (st (E n)) (i (E n)) in
  let dv n := ot_dv shift aw (st (E n)) (i (E n)) in
  let n0 := occurrences (fun x => ot_cd (i x)) 0 t0 in
  let asked n := match ot_addr shift aw depth (st (E n)) (i (E n)) with Some _ => true | None => false end in
  let frame := Z.to_nat ((p_hscan p + 1) * (p_vscan p + 1)) in
  forall lat s, memory_keeps_up n0 frame lat s (fun n => ot_mem (i (E n))) (fun n => ot_ret (i (E n))) asked (fun n => px_de (o n) && dv n) ->
  (1 <= lat)%nat -> (lat + s + 2 <= depth)%nat ->
  forall (gain K : nat), (0 < gain)%nat -> Z.of_nat gain <= p_hres p * p_vres p ->
  p_hres p * p_vres p + Z.of_nat (s + 2 + gain) <= (p_hscan p + 1) * (p_vscan p + 1) -> (depth <= K * gain)%nat ->
  (forall n, (n0 + K * frame <= n)%nat -> dv n = true) /\
  (forall n, (n0 + K * frame <= n)%nat -> underflows o dv n = underflows o dv (n0 + K * frame)).
Proof.
  intros shift aw depth mem ra i Haw HM u p t0 Hon ok Hpix E HE Hready M junk st o dv n0 asked frame lat s Hmem Hlat Hdepth gain K G1 G2 G3 G4.
  assert (DV : forall n, (n0 + K * frame <= n)%nat -> dv n = true)
    by exact (mv_no_underflow shift aw depth mem ra i Haw HM u p t0 Hon ok Hpix E HE Hready M junk lat s Hmem Hlat Hdepth gain K G1 G2 G3 G4).
  split; [exact DV|]. intros n N. unfold underflows. replace n with (n0 + K * frame + (n - (n0 + K * frame)))%nat by lia. rewrite occ_app.
  rewrite (occ_zero _ (0 + (n0 + K * frame))); [lia|]. intros x X. rewrite DV by lia. apply andb_false_r.
Qed.
Print Assumptions C126_never_underflows.

(** From the lock of the receiver's clock generator (C116) to slots loaded in turn (C125), with
    pictures that move, and with nothing assumed about underflows. *)
Theorem C126_lock_no_tearing :
  forall shift txaw depth txmem txra (ti : nat -> ot_in), 0 <= txaw -> length txmem = 4%nat ->
  forall u p t0, enabled_moving shift txaw depth txmem txra ti u p t0 ->
  params_ok p -> 24 <= p_hres p -> p_hres p + 30 <= p_hscan p + 1 -> 1 <= p_vres p <= p_vscan p ->
  p_hres p < p_hs_start p -> p_vres p <= p_vs_start p < p_vs_end p ->
  p_hres p * p_vres p < 2 ^ txaw -> Z.of_nat depth <= p_hres p * p_vres p ->
  let HV := (p_hscan p + 1) * (p_vscan p + 1) in
  forall E, clocks ti HV E -> (forall x, ot_ready (ti x) = true) ->
  forall Mtx junk, let st := ot_run shift txaw depth txmem txra ti in
  let o n := ot_px shift txaw Mtx (junk n) (st (E n)) (ti (E n)) in
  let dv n := ot_dv shift txaw (st (E n)) (ti (E n)) in
  let n0 := occurrences (fun x => ot_cd (ti x)) 0 t0 in
  let pos n := Z.of_nat n - Z.of_nat n0 - Z.of_nat (underflows o dv n) in
  let regs t := ini_regs (ot_ini (st t)) in
  let asked n := match ot_addr shift txaw depth (st (E n)) (ti (E n)) with Some _ => true | None => false end in
  let frame := Z.to_nat HV in
  forall lat s, memory_keeps_up n0 frame lat s (fun n => ot_mem (ti (E n))) (fun n => ot_ret (ti (E n))) asked (fun n => px_de (o n) && dv n) ->
  (1 <= lat)%nat -> (lat + s + 2 <= depth)%nat ->
  forall (gain fill : nat), (0 < gain)%nat -> Z.of_nat gain <= p_hres p * p_vres p ->
  p_hres p * p_vres p + Z.of_nat (s + 2 + gain) <= HV -> (depth <= fill * gain)%nat ->
  forall T, (n0 + fill * frame <= T)%nat ->
  let late := (n0 + underflows o dv (n0 + fill * frame))%nat in
  forall g, 1 <= g -> Z.of_nat T + 30 <= Z.of_nat late + 1 + g * HV ->
  forall r f P d Lk, locks r f o P d Lk -> forall dmin, (forall k, (k < 3)%nat -> (dmin <= d k <= dmin + 70)%nat) -> (P + 41 <= 10 * T)%nat ->
  exists b eb, rx_edge r b = true /\ (Lk < b <= Lk + 4 * rx_period r)%nat /\ (eb <= 32)%nat /\
  let N := ((P + eb + 9) / 10)%nat in let L k := (gear_bits r + d k + (10 * N - (P + eb)))%nat in
  let raw n k := rx_word r (b + rx_period r * n) k in
  forall s0, rx_state_ok s0 ->
  forall k m, (1 <= k)%nat -> let F := (2 ^ k)%nat in p_hres p * p_vres p = Z.of_nat (F * m) ->
  exists D, (forall k, (k < 3)%nat -> (L k / 10 + 7 < D <= L k / 10 + 15)%nat) /\
  (forall n, Z.of_nat late + Z.of_nat D + (g + 4) * HV <= Z.of_nat (N + n) ->
   let r := rx_rd (rx_run s0 raw n) in rd_h r = p_hres p mod 2 ^ 11 /\ rd_v r = p_vres p mod 2 ^ 11) /\
  forall n aw align mem ra ns (i : nat -> cap_in), let dw := 32 * Z.of_nat F in
  forall K Ed B T0 e, 0 <= e -> serving n F 32 aw dw align mem ra ns i (pk_stream s0 raw) K Ed B m T0 ->
  let vsync_of v := 1 + (v * (p_vscan p + 1) + p_vs_start p) * (p_hscan p + 1) in
  Z.of_nat (N + occurrences (fun v => cap_pix (i v)) 0 T0) = vsync_of (g + 2 + e) + Z.of_nat (late + D) + 1 ->
  forall w c addr, programs n F 32 aw dw align mem ra ns i K Ed B T0 w c addr ->
  let a := (addr / 2 ^ align) mod 2 ^ aw in
  exists x z, (w < x < z)%nat /\ (forall t, (w < t < z)%nat -> Z.odd (slot_status n F 32 aw dw align mem ra ns i t c) = true) /\
  slot_status n F 32 aw dw align mem ra ns i z c = 2 /\
  forall M, let M' := after M (collect (c_write n F 32 aw dw align mem ra (dma_init ns) i) x (z - x)) in
  exists f ta tb Tt, g + e + 3 <= f /\ (Tt <= depth)%nat /\ (u <= ta)%nat /\ (u <= tb)%nat /\
  (forall n', (n0 <= n')%nat -> 5 <= f -> pos n' <= (f - 4) * HV -> (E n' <= ta)%nat) /\
  (forall n', (n0 <= n')%nat -> pos n' <= (f - 3) * HV -> (E n' <= tb)%nat) /\
  (let shown j := Mtx (picture_word shift txaw (regs (if (j <? Tt)%nat then ta else tb)) (Z.of_nat j)) in
   forall q, (q < F * m)%nat ->
   slice (32 * Z.of_nat (F - 1 - q mod F)) 32 (M' ((a + Z.of_nat (q / F)) mod 2 ^ aw)) = stored (shown q)) /\
  (forall v, (forall j, (j < m)%nat -> v <> (a + Z.of_nat j) mod 2 ^ aw) -> M' v = M v).
Proof.
  intros shift txaw depth txmem txra ti Haw HM u p t0 Hon ok H1 H2 H3 H4 H5 HLen Hdepth HV E HE Hready Mtx junk st o dv n0 pos regs asked frame
    lat s Hmem Hlat Hd gain fill G1 G2 G3 G4 T HT late g Hg HTg r f P d Lk HL dmin HDm HT1.
  assert (Hpix : 0 < p_hres p * p_vres p < 2 ^ txaw) by (split; [apply Z.mul_pos_pos; lia|exact HLen]).
  destruct (C126_never_underflows shift txaw depth txmem txra ti Haw HM u p t0 Hon ok Hpix E HE Hready Mtx junk lat s Hmem Hlat Hd gain fill G1 G2 G3 G4) as [DV UF].
  assert (LT : late = (n0 + underflows o dv T)%nat) by (unfold late; f_equal; symmetry; exact (UF T HT)).
  destruct (C116_lock r f o P d Lk HL dmin HDm) as (b & eb & B1 & B2 & B3 & LA).
  exists b, eb. split; [exact B1|]. split; [exact B2|]. split; [exact B3|]. intros N L raw s0 HS.
  assert (HN : (N <= T)%nat) by (unfold N; apply Nat.div_le_upper_bound; lia).
  pose proof (C125_no_tearing shift txaw depth txmem txra ti Haw HM u p t0 Hon ok H1 H2 H3 H4 H5 HLen Hdepth E HE Hready Mtx junk T) as X. cbv zeta in X.
  specialize (X ltac:(fold n0; lia) (fun n N _ => DV n (Nat.le_trans _ _ _ HT N)) g Hg).
  change (occurrences (fun x => ot_cd (ti x)) 0 t0 + _)%nat with (n0 + underflows o dv T)%nat in X. rewrite <- LT in X.
  exact (X HTg N HN L (gear_bits r + dmin + (10 * N - (P + eb)))%nat raw s0 (LA s0 HS)).
Qed.
Print Assumptions C126_lock_no_tearing.

(** The same in the receiver's default mode, YCbCr 4:2:2. *)
Theorem C126_lock_no_tearing_422 :
  forall shift txaw depth txmem txra (ti : nat -> ot_in), 0 <= txaw -> length txmem = 4%nat ->
  forall u p t0, enabled_moving shift txaw depth txmem txra ti u p t0 ->
  params_ok p -> 24 <= p_hres p -> p_hres p + 30 <= p_hscan p + 1 -> 1 <= p_vres p <= p_vscan p ->
  p_hres p < p_hs_start p -> p_vres p <= p_vs_start p < p_vs_end p -> Z.even (p_hres p) = true ->
  p_hres p * p_vres p < 2 ^ txaw -> Z.of_nat depth <= p_hres p * p_vres p ->
  let HV := (p_hscan p + 1) * (p_vscan p + 1) in
  forall E, clocks ti HV E -> (forall x, ot_ready (ti x) = true) ->
  forall Mtx junk, let st := ot_run shift txaw depth txmem txra ti in
  let o n := ot_px shift txaw Mtx (junk n) (st (E n)) (ti (E n)) in
  let dv n := ot_dv shift txaw (st (E n)) (ti (E n)) in
  let n0 := occurrences (fun x => ot_cd (ti x)) 0 t0 in
  let pos n := Z.of_nat n - Z.of_nat n0 - Z.of_nat (underflows o dv n) in
  let regs t := ini_regs (ot_ini (st t)) in
  let asked n := match ot_addr shift txaw depth (st (E n)) (ti (E n)) with Some _ => true | None => false end in
  let frame := Z.to_nat HV in
  forall lat s, memory_keeps_up n0 frame lat s (fun n => ot_mem (ti (E n))) (fun n => ot_ret (ti (E n))) asked (fun n => px_de (o n) && dv n) ->
  (1 <= lat)%nat -> (lat + s + 2 <= depth)%nat ->
  forall (gain fill : nat), (0 < gain)%nat -> Z.of_nat gain <= p_hres p * p_vres p ->
  p_hres p * p_vres p + Z.of_nat (s + 2 + gain) <= HV -> (depth <= fill * gain)%nat ->
  forall T, (n0 + fill * frame <= T)%nat ->
  let late := (n0 + underflows o dv (n0 + fill * frame))%nat in
  forall g, 1 <= g -> Z.of_nat T + 30 <= Z.of_nat late + 1 + g * HV ->
  forall r f P d Lk, locks r f o P d Lk -> forall dmin, (forall k, (k < 3)%nat -> (dmin <= d k <= dmin + 70)%nat) -> (P + 41 <= 10 * T)%nat ->
  exists b eb, rx_edge r b = true /\ (Lk < b <= Lk + 4 * rx_period r)%nat /\ (eb <= 32)%nat /\
  let N := ((P + eb + 9) / 10)%nat in let L k := (gear_bits r + d k + (10 * N - (P + eb)))%nat in
  let raw n k := rx_word r (b + rx_period r * n) k in
  forall s0, rx_state_ok s0 ->
  forall k m, (1 <= k)%nat -> let F := (2 ^ k)%nat in p_hres p * p_vres p = Z.of_nat (F * m) ->
  exists D, (forall k, (k < 3)%nat -> (L k / 10 + 7 < D <= L k / 10 + 15)%nat) /\
  forall n aw align mem ra ns (i : nat -> cap_in), let dw := 16 * Z.of_nat F in
  forall K Ed B T0 e, 0 <= e -> serving n F 16 aw dw align mem ra ns i (ycc_pk_stream F s0 raw) K Ed B m T0 ->
  let vsync_of v := 1 + (v * (p_vscan p + 1) + p_vs_start p) * (p_hscan p + 1) in
  Z.of_nat (N + occurrences (fun v => cap_pix (i v)) 0 T0) = vsync_of (g + 2 + e) + Z.of_nat (late + D) + 1 ->
  forall w c addr, programs n F 16 aw dw align mem ra ns i K Ed B T0 w c addr ->
  let a := (addr / 2 ^ align) mod 2 ^ aw in
  exists x z, (w < x < z)%nat /\ (forall t, (w < t < z)%nat -> Z.odd (slot_status n F 16 aw dw align mem ra ns i t c) = true) /\
  slot_status n F 16 aw dw align mem ra ns i z c = 2 /\
  forall M, let M' := after M (collect (c_write n F 16 aw dw align mem ra (dma_init ns) i) x (z - x)) in
  exists f ta tb Tt, g + e + 3 <= f /\ (Tt <= depth)%nat /\ (u <= ta)%nat /\ (u <= tb)%nat /\
  (forall n', (n0 <= n')%nat -> 5 <= f -> pos n' <= (f - 4) * HV -> (E n' <= ta)%nat) /\
  (forall n', (n0 <= n')%nat -> pos n' <= (f - 3) * HV -> (E n' <= tb)%nat) /\
  (let shown j := Mtx (picture_word shift txaw (regs (if (j <? Tt)%nat then ta else tb)) (Z.of_nat j)) in
   forall q, (q < F * m)%nat ->
   slice (16 * Z.of_nat (F - 1 - q mod F)) 16 (M' ((a + Z.of_nat (q / F)) mod 2 ^ aw)) = stored_422 shown q) /\
  (forall v, (forall j, (j < m)%nat -> v <> (a + Z.of_nat j) mod 2 ^ aw) -> M' v = M v).
Proof.
  intros shift txaw depth txmem txra ti Haw HM u p t0 Hon ok H1 H2 H3 H4 H5 EV HLen Hdepth HV E HE Hready Mtx junk st o dv n0 pos regs asked frame
    lat s Hmem Hlat Hd gain fill G1 G2 G3 G4 T HT late g Hg HTg r f P d Lk HL dmin HDm HT1.
  assert (Hpix : 0 < p_hres p * p_vres p < 2 ^ txaw) by (split; [apply Z.mul_pos_pos; lia|exact HLen]).
  destruct (C126_never_underflows shift txaw depth txmem txra ti Haw HM u p t0 Hon ok Hpix E HE Hready Mtx junk lat s Hmem Hlat Hd gain fill G1 G2 G3 G4) as [DV UF].
  assert (LT : late = (n0 + underflows o dv T)%nat) by (unfold late; f_equal; symmetry; exact (UF T HT)).
  destruct (C116_lock r f o P d Lk HL dmin HDm) as (b & eb & B1 & B2 & B3 & LA).
  exists b, eb. split; [exact B1|]. split; [exact B2|]. split; [exact B3|]. intros N L raw s0 HS.
  assert (HN : (N <= T)%nat) by (unfold N; apply Nat.div_le_upper_bound; lia).
  pose proof (C125_no_tearing_422 shift txaw depth txmem txra ti Haw HM u p t0 Hon ok H1 H2 H3 H4 H5 EV HLen Hdepth E HE Hready Mtx junk T) as X. cbv zeta in X.
  specialize (X ltac:(fold n0; lia) (fun n N _ => DV n (Nat.le_trans _ _ _ HT N)) g Hg).
  change (occurrences (fun x => ot_cd (ti x)) 0 t0 + _)%nat with (n0 + underflows o dv T)%nat in X. rewrite <- LT in X.
  exact (X HTg N HN L (gear_bits r + dmin + (10 * N - (P + eb)))%nat raw s0 (LA s0 HS)).
Qed.
Print Assumptions C126_lock_no_tearing_422.

(** A picture chosen once and for all during frame [f0] is the only one in every slot loaded from frame [f0 + 5] on. *)
Theorem C126_lock_new_picture :
  forall shift txaw depth txmem txra (ti : nat -> ot_in), 0 <= txaw -> length txmem = 4%nat ->
  forall u p t0, enabled_moving shift txaw depth txmem txra ti u p t0 ->
  params_ok p -> 24 <= p_hres p -> p_hres p + 30 <= p_hscan p + 1 -> 1 <= p_vres p <= p_vscan p ->
  p_hres p < p_hs_start p -> p_vres p <= p_vs_start p < p_vs_end p ->
  p_hres p * p_vres p < 2 ^ txaw -> Z.of_nat depth <= p_hres p * p_vres p ->
  let HV := (p_hscan p + 1) * (p_vscan p + 1) in
  forall E, clocks ti HV E -> (forall x, ot_ready (ti x) = true) ->
  forall Mtx junk, let st := ot_run shift txaw depth txmem txra ti in
  let o n := ot_px shift txaw Mtx (junk n) (st (E n)) (ti (E n)) in
  let dv n := ot_dv shift txaw (st (E n)) (ti (E n)) in
  let n0 := occurrences (fun x => ot_cd (ti x)) 0 t0 in
  let pos n := Z.of_nat n - Z.of_nat n0 - Z.of_nat (underflows o dv n) in
  let regs t := ini_regs (ot_ini (st t)) in
  let asked n := match ot_addr shift txaw depth (st (E n)) (ti (E n)) with Some _ => true | None => false end in
  let frame := Z.to_nat HV in
  forall lat s, memory_keeps_up n0 frame lat s (fun n => ot_mem (ti (E n))) (fun n => ot_ret (ti (E n))) asked (fun n => px_de (o n) && dv n) ->
  (1 <= lat)%nat -> (lat + s + 2 <= depth)%nat ->
  forall (gain fill : nat), (0 < gain)%nat -> Z.of_nat gain <= p_hres p * p_vres p ->
  p_hres p * p_vres p + Z.of_nat (s + 2 + gain) <= HV -> (depth <= fill * gain)%nat ->
  forall T, (n0 + fill * frame <= T)%nat ->
  let late := (n0 + underflows o dv (n0 + fill * frame))%nat in
  forall g, 1 <= g -> Z.of_nat T + 30 <= Z.of_nat late + 1 + g * HV ->
  forall r f P d Lk, locks r f o P d Lk -> forall dmin, (forall k, (k < 3)%nat -> (dmin <= d k <= dmin + 70)%nat) -> (P + 41 <= 10 * T)%nat ->
  exists b eb, rx_edge r b = true /\ (Lk < b <= Lk + 4 * rx_period r)%nat /\ (eb <= 32)%nat /\
  let N := ((P + eb + 9) / 10)%nat in let L k := (gear_bits r + d k + (10 * N - (P + eb)))%nat in
  let raw n k := rx_word r (b + rx_period r * n) k in
  forall s0, rx_state_ok s0 ->
  forall k m, (1 <= k)%nat -> let F := (2 ^ k)%nat in p_hres p * p_vres p = Z.of_nat (F * m) ->
  exists D, (forall k, (k < 3)%nat -> (L k / 10 + 7 < D <= L k / 10 + 15)%nat) /\
  forall n aw align mem ra ns (i : nat -> cap_in), let dw := 32 * Z.of_nat F in
  forall K Ed B T0 e, 0 <= e -> serving n F 32 aw dw align mem ra ns i (pk_stream s0 raw) K Ed B m T0 ->
  let vsync_of v := 1 + (v * (p_vscan p + 1) + p_vs_start p) * (p_hscan p + 1) in
  Z.of_nat (N + occurrences (fun v => cap_pix (i v)) 0 T0) = vsync_of (g + 2 + e) + Z.of_nat (late + D) + 1 ->
  forall w c addr, programs n F 32 aw dw align mem ra ns i K Ed B T0 w c addr ->
  let a := (addr / 2 ^ align) mod 2 ^ aw in
  exists x z, (w < x < z)%nat /\ (forall t, (w < t < z)%nat -> Z.odd (slot_status n F 32 aw dw align mem ra ns i t c) = true) /\
  slot_status n F 32 aw dw align mem ra ns i z c = 2 /\
  forall M, let M' := after M (collect (c_write n F 32 aw dw align mem ra (dma_init ns) i) x (z - x)) in
  forall wr R, (forall x, (wr <= x)%nat -> regs x = R) ->
  forall f0 n1, (n0 <= n1)%nat -> (wr <= E n1)%nat -> pos n1 <= (f0 + 1) * HV -> f0 + 5 <= g + e + 3 -> 0 <= f0 ->
  (forall q, (q < F * m)%nat ->
   slice (32 * Z.of_nat (F - 1 - q mod F)) 32 (M' ((a + Z.of_nat (q / F)) mod 2 ^ aw)) = stored (Mtx (picture_word shift txaw R (Z.of_nat q)))) /\
  (forall v, (forall j, (j < m)%nat -> v <> (a + Z.of_nat j) mod 2 ^ aw) -> M' v = M v).
Proof.
  intros shift txaw depth txmem txra ti Haw HM u p t0 Hon ok H1 H2 H3 H4 H5 HLen Hdepth HV E HE Hready Mtx junk st o dv n0 pos regs asked frame
    lat s Hmem Hlat Hd gain fill G1 G2 G3 G4 T HT late g Hg HTg r f P d Lk HL dmin HDm HT1.
  assert (Hpix : 0 < p_hres p * p_vres p < 2 ^ txaw) by (split; [apply Z.mul_pos_pos; lia|exact HLen]).
  destruct (C126_never_underflows shift txaw depth txmem txra ti Haw HM u p t0 Hon ok Hpix E HE Hready Mtx junk lat s Hmem Hlat Hd gain fill G1 G2 G3 G4) as [DV UF].
  assert (LT : late = (n0 + underflows o dv T)%nat) by (unfold late; f_equal; symmetry; exact (UF T HT)).
  destruct (C116_lock r f o P d Lk HL dmin HDm) as (b & eb & B1 & B2 & B3 & LA).
  exists b, eb. split; [exact B1|]. split; [exact B2|]. split; [exact B3|]. intros N L raw s0 HS.
  assert (HN : (N <= T)%nat) by (unfold N; apply Nat.div_le_upper_bound; lia).
  pose proof (C125_new_picture shift txaw depth txmem txra ti Haw HM u p t0 Hon ok H1 H2 H3 H4 H5 HLen Hdepth E HE Hready Mtx junk T) as X. cbv zeta in X.
  specialize (X ltac:(fold n0; lia) (fun n N _ => DV n (Nat.le_trans _ _ _ HT N)) g Hg).
  change (occurrences (fun x => ot_cd (ti x)) 0 t0 + _)%nat with (n0 + underflows o dv T)%nat in X. rewrite <- LT in X.
  exact (X HTg N HN L (gear_bits r + dmin + (10 * N - (P + eb)))%nat raw s0 (LA s0 HS)).
Qed.
Print Assumptions C126_lock_new_picture.

Theorem C126_lock_new_picture_422 :
  forall shift txaw depth txmem txra (ti : nat -> ot_in), 0 <= txaw -> length txmem = 4%nat ->
  forall u p t0, enabled_moving shift txaw depth txmem txra ti u p t0 ->
  params_ok p -> 24 <= p_hres p -> p_hres p + 30 <= p_hscan p + 1 -> 1 <= p_vres p <= p_vscan p ->
  p_hres p < p_hs_start p -> p_vres p <= p_vs_start p < p_vs_end p -> Z.even (p_hres p) = true ->
  p_hres p * p_vres p < 2 ^ txaw -> Z.of_nat depth <= p_hres p * p_vres p ->
  let HV := (p_hscan p + 1) * (p_vscan p + 1) in
  forall E, clocks ti HV E -> (forall x, ot_ready (ti x) = true) ->
  forall Mtx junk, let st := ot_run shift txaw depth txmem txra ti in
  let o n := ot_px shift txaw Mtx (junk n) (st (E n)) (ti (E n)) in
  let dv n := ot_dv shift txaw (st (E n)) (ti (E n)) in
  let n0 := occurrences (fun x => ot_cd (ti x)) 0 t0 in
  let pos n := Z.of_nat n - Z.of_nat n0 - Z.of_nat (underflows o dv n) in
  let regs t := ini_regs (ot_ini (st t)) in
  let asked n := match ot_addr shift txaw depth (st (E n)) (ti (E n)) with Some _ => true | None => false end in
  let frame := Z.to_nat HV in
  forall lat s, memory_keeps_up n0 frame lat s (fun n => ot_mem (ti (E n))) (fun n => ot_ret (ti (E n))) asked (fun n => px_de (o n) && dv n) ->
  (1 <= lat)%nat -> (lat + s + 2 <= depth)%nat ->
  forall (gain fill : nat), (0 < gain)%nat -> Z.of_nat gain <= p_hres p * p_vres p ->
  p_hres p * p_vres p + Z.of_nat (s + 2 + gain) <= HV -> (depth <= fill * gain)%nat ->
  forall T, (n0 + fill * frame <= T)%nat ->
  let late := (n0 + underflows o dv (n0 + fill * frame))%nat in
  forall g, 1 <= g -> Z.of_nat T + 30 <= Z.of_nat late + 1 + g * HV ->
  forall r f P d Lk, locks r f o P d Lk -> forall dmin, (forall k, (k < 3)%nat -> (dmin <= d k <= dmin + 70)%nat) -> (P + 41 <= 10 * T)%nat ->
  exists b eb, rx_edge r b = true /\ (Lk < b <= Lk + 4 * rx_period r)%nat /\ (eb <= 32)%nat /\
  let N := ((P + eb + 9) / 10)%nat in let L k := (gear_bits r + d k + (10 * N - (P + eb)))%nat in
  let raw n k := rx_word r (b + rx_period r * n) k in
  forall s0, rx_state_ok s0 ->
  forall k m, (1 <= k)%nat -> let F := (2 ^ k)%nat in p_hres p * p_vres p = Z.of_nat (F * m) ->
  exists D, (forall k, (k < 3)%nat -> (L k / 10 + 7 < D <= L k / 10 + 15)%nat) /\
  forall n aw align mem ra ns (i : nat -> cap_in), let dw := 16 * Z.of_nat F in
  forall K Ed B T0 e, 0 <= e -> serving n F 16 aw dw align mem ra ns i (ycc_pk_stream F s0 raw) K Ed B m T0 ->
  let vsync_of v := 1 + (v * (p_vscan p + 1) + p_vs_start p) * (p_hscan p + 1) in
  Z.of_nat (N + occurrences (fun v => cap_pix (i v)) 0 T0) = vsync_of (g + 2 + e) + Z.of_nat (late + D) + 1 ->
  forall w c addr, programs n F 16 aw dw align mem ra ns i K Ed B T0 w c addr ->
  let a := (addr / 2 ^ align) mod 2 ^ aw in
  exists x z, (w < x < z)%nat /\ (forall t, (w < t < z)%nat -> Z.odd (slot_status n F 16 aw dw align mem ra ns i t c) = true) /\
  slot_status n F 16 aw dw align mem ra ns i z c = 2 /\
  forall M, let M' := after M (collect (c_write n F 16 aw dw align mem ra (dma_init ns) i) x (z - x)) in
  forall wr R, (forall x, (wr <= x)%nat -> regs x = R) ->
  forall f0 n1, (n0 <= n1)%nat -> (wr <= E n1)%nat -> pos n1 <= (f0 + 1) * HV -> f0 + 5 <= g + e + 3 -> 0 <= f0 ->
  (forall q, (q < F * m)%nat ->
   slice (16 * Z.of_nat (F - 1 - q mod F)) 16 (M' ((a + Z.of_nat (q / F)) mod 2 ^ aw)) = stored_422 (fun j => Mtx (picture_word shift txaw R (Z.of_nat j))) q) /\
  (forall v, (forall j, (j < m)%nat -> v <> (a + Z.of_nat j) mod 2 ^ aw) -> M' v = M v).
Proof.
  intros shift txaw depth txmem txra ti Haw HM u p t0 Hon ok H1 H2 H3 H4 H5 EV HLen Hdepth HV E HE Hready Mtx junk st o dv n0 pos regs asked frame
    lat s Hmem Hlat Hd gain fill G1 G2 G3 G4 T HT late g Hg HTg r f P d Lk HL dmin HDm HT1.
  assert (Hpix : 0 < p_hres p * p_vres p < 2 ^ txaw) by (split; [apply Z.mul_pos_pos; lia|exact HLen]).
  destruct (C126_never_underflows shift txaw depth txmem txra ti Haw HM u p t0 Hon ok Hpix E HE Hready Mtx junk lat s Hmem Hlat Hd gain fill G1 G2 G3 G4) as [DV UF].
  assert (LT : late = (n0 + underflows o dv T)%nat) by (unfold late; f_equal; symmetry; exact (UF T HT)).
  destruct (C116_lock r f o P d Lk HL dmin HDm) as (b & eb & B1 & B2 & B3 & LA).
  exists b, eb. split; [exact B1|]. split; [exact B2|]. split; [exact B3|]. intros N L raw s0 HS.
  assert (HN : (N <= T)%nat) by (unfold N; apply Nat.div_le_upper_bound; lia).
  pose proof (C125_new_picture_422 shift txaw depth txmem txra ti Haw HM u p t0 Hon ok H1 H2 H3 H4 H5 EV HLen Hdepth E HE Hready Mtx junk T) as X. cbv zeta in X.
  specialize (X ltac:(fold n0; lia) (fun n N _ => DV n (Nat.le_trans _ _ _ HT N)) g Hg).
  change (occurrences (fun x => ot_cd (ti x)) 0 t0 + _)%nat with (n0 + underflows o dv T)%nat in X. rewrite <- LT in X.
  exact (X HTg N HN L (gear_bits r + dmin + (10 * N - (P + eb)))%nat raw s0 (LA s0 HS)).
Qed.
Print Assumptions C126_lock_new_picture_422.

(** *** The hypotheses are met: the output of SizingProps.v, whose base register software changes
    from 400 to 800 at instant 500. *)
Definition ex_mv_in (t : nat) : ot_in :=
  {| ot_sys := true; ot_cd := true; ot_sw := if Nat.eqb t 500 then IwField 8 800 else ot_sw (ex_sz_in t);
     ot_mem := ot_mem (ex_sz_in t); ot_ret := ot_ret (ex_sz_in t); ot_ready := true; ot_mp := 0; ot_mc := 5 |}.
Definition ex_mv (t : nat) : ot_st := ot_run 2 8 12 (repeat [] 4) 0 ex_mv_in t.
Lemma ex_mv_step : forall t, (11 <= t)%nat -> let s := ot_ini (ex_mv t) in let s' := ot_ini (ex_mv (S t)) in
  ini_en s' = ini_en s /\ ini_regs s' = if Nat.eqb t 500 then snd (ini_write (IwField 8 800) (ini_en s) (ini_regs s)) else ini_regs s.
Proof.
  intros t T s s'. unfold s', s. change (ex_mv (S t)) with (ot_step 2 8 12 (ex_mv t) (ex_mv_in t)). unfold ot_step. cbv zeta. cbn [ot_ini]. unfold ini_step. cbv zeta.
  cbn [ini_en ini_regs ot_ini_in ini_sys ini_sw ex_mv_in ot_sys ot_sw]. destruct (Nat.eqb t 500); [auto|].
  cbn [ex_sz_in ot_sw]. replace (t <? 10)%nat with false by (symmetry; apply Nat.ltb_ge; lia). replace (Nat.eqb t 10) with false by (symmetry; apply Nat.eqb_neq; lia).
  auto.
Qed.
Example ex_mv_on : enabled_moving 2 8 12 (repeat [] 4) 0 ex_mv_in 11 ex_mode 14 /\ (forall x, (501 <= x)%nat -> ini_regs (ot_ini (ex_mv x)) = ex_sw_regs).
Proof.
  assert (AFT : forall t, (11 <= t)%nat -> ini_en (ot_ini (ex_mv t)) = true /\ ini_regs (ot_ini (ex_mv t)) = if (t <=? 500)%nat then ex_ot_regs else ex_sw_regs).
  { intros t T. induction T as [|t T (A & B)]; [vm_compute; auto|]. destruct (ex_mv_step t T) as [C D]. cbv zeta in C, D. rewrite C, D, A, B. split; [reflexivity|].
    destruct (Nat.eqb_spec t 500) as [-> |N5]; [reflexivity|].
    destruct (Nat.leb_spec t 500) as [X|X]; [rewrite (proj2 (Nat.leb_le (S t) 500)) by lia|rewrite (proj2 (Nat.leb_gt (S t) 500)) by lia]; reflexivity. }
  split; [split; [|split; [|split]]|].
  - intros x. destruct (Nat.leb_spec 11 x) as [X|X]; [apply AFT; exact X|].
    assert (Q : forallb (fun x => negb (ini_en (ot_ini (ex_mv x)))) (seq 0 11) = true) by (vm_compute; reflexivity).
    rewrite forallb_forall in Q. apply negb_true_iff, Q, in_seq. lia.
  - intros x X. destruct (AFT x X) as [_ B]. change (ot_run 2 8 12 (repeat [] 4) 0 ex_mv_in x) with (ex_mv x). rewrite B. destruct (x <=? 500)%nat; split; reflexivity.
  - vm_compute. discriminate.
  - intros x X. assert (Q : forallb (fun x => match ini_out (ot_ini (ex_mv x)) with None => true | _ => false end) (seq 0 14) = true) by (vm_compute; reflexivity).
    rewrite forallb_forall in Q. specialize (Q x). fold (ex_mv x). destruct (ini_out (ot_ini (ex_mv x))); [|reflexivity].
    assert (false = true) by (apply Q, in_seq; lia). discriminate.
  - intros x X. destruct (AFT x ltac:(lia)) as [_ ->]. replace (x <=? 500)%nat with false by (symmetry; apply Nat.leb_gt; lia). reflexivity.
Qed.
Example ex_mv_clocks : clocks ex_mv_in ((p_hscan ex_mode + 1) * (p_vscan ex_mode + 1)) (fun n => n).
Proof.
  split; [intros n; split; [reflexivity|apply all_edges]|]. intros a b AB H.
  change (fun x => ot_cd (ex_mv_in x)) with (fun _ : nat => true) in H. change (fun x => ot_sys (ex_mv_in x)) with (fun _ : nat => true).
  rewrite all_edges in *. cbn in H. lia.
Qed.
(** After the first frame no word is missing any more, before as well as after the change. *)
Example ex_mv_fed : forall n, (294 <= n)%nat -> ot_dv 2 8 (ex_mv n) (ex_mv_in n) = true.
Proof.
  destruct ex_mv_on as [ON _]. destruct ex_mode_ok as [ok _].
  destruct (C126_never_underflows 2 8 12 (repeat [] 4) 0 ex_mv_in ltac:(lia) eq_refl 11 ex_mode 14 ON ok ltac:(cbn; lia) (fun n => n) ex_mv_clocks (fun _ => eq_refl)
    (fun a => a) (fun _ => 0) 6 3 (ex_sz_mem _ _) ltac:(lia) ltac:(lia) 12 1 ltac:(lia) ltac:(cbn; lia) ltac:(cbn; lia) ltac:(lia)) as [DV _].
  intros n N. apply DV. change (occurrences _ 0 14) with 14%nat. change (Z.to_nat _) with 280%nat. lia.
Qed.
(** And all the way: the receiver is of either kind, and its clock generator locks when a thousand
    bits have been sent; slot 0 gets the new picture. *)
Example C126_case : forall Mtx junk f ti ri m Lk s6 s7 s0, (1 <= m)%nat -> (1 <= Lk)%nat -> rx_state_ok s0 ->
  let o n := ot_px 2 8 Mtx (junk n) (ex_mv n) (ex_mv_in n) in
  forall r, r = ex_R6 true f o ti ri 1000 (fun k => (3 * k)%nat) Lk s6 \/ r = ex_R7 m f o ti ri 1000 (fun k => (3 * k)%nat) Lk s7 ->
  exists b N0, let raw n k := rx_word r (b + rx_period r * n) k in
  let T0 := (4 * N0 - 3)%nat in let i := ex_str (pk_stream s0 raw) 12 (T0 + 20) in
  exists x z, slot_status 4 4 32 13 128 3 (repeat (false, []) 16) 0 2 i z 0 = 2 /\
  forall M, let M' := after M (collect (c_write 4 4 32 13 128 3 (repeat (false, []) 16) 0 (dma_init 2) i) x (z - x)) in
  forall q, (q < 48)%nat -> slice (32 * Z.of_nat (3 - q mod 4)) 32 (M' (8 + Z.of_nat (q / 4))) = stored (Mtx (200 + Z.of_nat q)).
Proof.
  intros Mtx junk f ti ri m Lk s6 s7 s0 Hm HLk HS0 o r HR. destruct ex_mv_on as [ON RR]. destruct ex_mode_ok as (ok & M1 & M2 & M3 & M4 & M5 & M6).
  set (dv := fun n => ot_dv 2 8 (ex_mv n) (ex_mv_in n)).
  assert (N14 : occurrences (fun x => ot_cd (ex_mv_in x)) 0 14 = 14%nat) by reflexivity.
  assert (UF : underflows o dv 294 = 5%nat).
  { unfold underflows. rewrite (occurrences_ext _ (fun m => tg_de (vt_valid (ot_vt 2 8 (ex_mv m))) (ot_tg (ex_mv m)) && negb (dv m))) by reflexivity. vm_compute. reflexivity. }
  assert (UF5 : underflows o dv 501 = 5%nat).
  { unfold underflows in *. replace 501%nat with (294 + 207)%nat by reflexivity. rewrite occ_app, UF, (occ_zero _ (0 + 294)); [reflexivity|].
    intros x X. unfold dv. rewrite ex_mv_fed by lia. apply andb_false_r. }
  assert (LKS : locks r f o 1000 (fun k => (3 * k)%nat) Lk).
  { destruct (ex_locks true m f o ti ri 1000 (fun k => (3 * k)%nat) Lk s6 s7 Hm HLk) as [K6 K7]. destruct HR as [-> | ->]; assumption. }
  pose proof (C126_lock_new_picture 2 8 12 (repeat [] 4) 0 ex_mv_in ltac:(lia) eq_refl 11 ex_mode 14 ON ok M1 M2 M3 M4 M5 ltac:(cbn; lia) ltac:(cbn; lia)
    (fun n => n) ex_mv_clocks (fun _ => eq_refl) Mtx junk) as X. cbv zeta in X.
  specialize (X 6%nat 3%nat (ex_sz_mem _ _) ltac:(lia) ltac:(lia) 12%nat 1%nat ltac:(lia) ltac:(cbn; lia) ltac:(cbn; lia) ltac:(lia)).
  rewrite N14 in X. change (14 + 1 * Z.to_nat _)%nat with 294%nat in X. change (underflows _ _ 294) with (underflows o dv 294) in X. rewrite UF in X.
  destruct (X 294%nat ltac:(lia) 2 ltac:(lia) ltac:(cbn; lia) r f 1000%nat (fun k => (3 * k)%nat) Lk LKS 0%nat ltac:(cbv beta; intros; lia) ltac:(lia)) as (b & eb & _ & _ & EB & Y). clear X.
  specialize (Y s0 HS0 2%nat 12%nat ltac:(lia) M6). destruct Y as (D & _ & CAP).
  set (N := ((1000 + eb + 9) / 10)%nat) in *. assert (NB : (N <= 110)%nat) by (unfold N; apply Nat.div_le_upper_bound; lia).
  exists b, (Z.to_nat (1589 + Z.of_nat D - Z.of_nat N)).
  set (N0 := Z.to_nat _). assert (NN : Z.of_nat N + Z.of_nat N0 = 1589 + Z.of_nat D) by (unfold N0; rewrite Z2Nat.id by lia; lia). clearbody N0. intros raw T0 i.
  destruct (ex_serving (pk_stream s0 raw) 2 32 12 N0 ltac:(lia) ltac:(lia)) as (SV & PG & CN).
  specialize (CAP 4 13 3 (repeat (false, []) 16) 0 2%nat i 1%nat 0%nat 6%nat T0 1 ltac:(lia) SV).
  assert (CN' : occurrences (fun v => cap_pix (i v)) 0 T0 = N0) by exact CN. rewrite CN' in CAP.
  destruct (CAP ltac:(cbn [p_vscan p_vs_start p_hscan ex_mode]; lia) (T0 + 20)%nat 0%nat 64 PG) as (x & z & XZ & _ & SS & MM).
  exists x, z. split; [exact SS|]. intros M M' q Q.
  destruct (MM M 501%nat ex_sw_regs RR 1 501%nat ltac:(lia) ltac:(lia)) as [G _]; try lia.
  { change (underflows _ _ 501) with (underflows o dv 501). rewrite UF5. cbn. lia. }
  specialize (G q ltac:(cbn; lia)). 
  replace ((64 / 2 ^ 3) mod 2 ^ 13 + Z.of_nat (q / 2 ^ 2)) with (8 + Z.of_nat (q / 4)) in G by reflexivity.
  assert (Q4 : (q / 4 < 12)%nat) by (apply Nat.div_lt_upper_bound; lia).
  rewrite Z.mod_small in G by (change (2 ^ 13) with 8192; lia).
  unfold picture_word in G. change (nth 8 ex_sw_regs 0 / 2 ^ 2) with 200 in G. rewrite Z.mod_small in G by (change (2 ^ 8) with 256; lia).
  exact G.
Qed.
