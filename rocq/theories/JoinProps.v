(** C116: the receiver may start, or lock, long after the transmitter. *)
From Coq Require Import ZArith List Bool Lia Arith.
From Verif Require Import Hdl Trace CdcProofs AnalysisModel TimingModel TimingSpec TimingProofs VideoOutModel VideoOutProofs
  HdmiModel HdmiProofs LinkModel LinkProofs LinkProps InDmaModel FifoModel FifoProofs FifoProps CaptureModel CaptureProofs CaptureProps
  FrameProofs FrameProps InDmaProofs InDmaProps GenlockProps PhyModel PhyProps StartupProofs StartupProps OutTopModel OutTopProofs OutTopProps
  CaptureLiveProofs CaptureLiveProps FrameLiveProofs CscModel CscSpec YccPathModel YccPathProps YccLinkModel YccLinkProps.
Import ListNotations.
Open Scope Z_scope.

(** ** Whole frames later the scan is the same *)
Section Later.
Variable p : fparam.
Hypothesis lk : link_ok p.
Variable g : Z.
Hypothesis Hg : 0 <= g.
Let HV := (p_vscan p + 1) * (p_hscan p + 1).

Lemma HV_pos : 0 < HV.
Proof. unfold HV. destruct (lk_ok p lk). nia. Qed.
Lemma frames_nat : Z.of_nat (Z.to_nat (g * HV)) = g * HV.
Proof. pose proof HV_pos. apply Z2Nat.id. nia. Qed.
Lemma later_xy : forall n : nat, let m := (n + Z.to_nat (g * HV))%nat in
  scan_x p (Z.of_nat m) = scan_x p (Z.of_nat n) /\ scan_y p (Z.of_nat m) = scan_y p (Z.of_nat n) /\
  Z.of_nat m / (p_hscan p + 1) / (p_vscan p + 1) = g + Z.of_nat n / (p_hscan p + 1) / (p_vscan p + 1).
Proof.
  intros n m. unfold m. rewrite Nat2Z.inj_add, frames_nat. unfold scan_x, scan_y, HV.
  destruct (lk_ok p lk). replace (Z.of_nat n + g * ((p_vscan p + 1) * (p_hscan p + 1))) with (Z.of_nat n + (g * (p_vscan p + 1)) * (p_hscan p + 1)) by ring.
  rewrite Z.mod_add, Z.div_add by lia. rewrite Z.mod_add, Z.div_add by lia. split; [reflexivity|]. split; [reflexivity|]. lia.
Qed.
Lemma later_scan : forall n, (1 <= n)%nat -> let m := (n + Z.to_nat (g * HV))%nat in
  tx_de p m = tx_de p n /\ tx_hs p m = tx_hs p n /\ tx_vs p m = tx_vs p n.
Proof.
  intros n N m. unfold tx_de, tx_hs, tx_vs. rewrite !(proj2 (Nat.leb_le 1 _)) by (unfold m; lia). cbn [andb].
  destruct (later_xy (n - 1)) as (X & Y & _). cbv zeta in X, Y.
  replace (Z.of_nat m - 1) with (Z.of_nat (n - 1 + Z.to_nat (g * HV))) by (unfold m; lia).
  replace (Z.of_nat n - 1) with (Z.of_nat (n - 1)) by lia. unfold spec_de, spec_hsync, spec_vsync. rewrite X, Y. repeat split.
Qed.
Lemma later_pixels : forall n, Z.of_nat (pixels_before p (n + Z.to_nat (g * HV))) = Z.of_nat (pixels_before p n) + g * (p_hres p * p_vres p).
Proof.
  intros n. rewrite !pixels_before_closed by apply (lk_ok p lk). destruct (later_xy n) as (X & Y & F). cbv zeta in X, Y, F. rewrite X, Y, F. ring.
Qed.
End Later.

(** The receiver starts when the transmitter is at clock [N]. *)
Lemma ot_link_joined : forall shift aw depth mem ra (i : nat -> ot_in), 0 <= aw -> length mem = 4%nat ->
  forall u R t0, enabled_with shift aw depth mem ra i u R t0 ->
  let p := timing_of R in link_ok p -> 0 < p_hres p * p_vres p < 2 ^ aw -> nth 9 R 0 / 2 ^ shift = p_hres p * p_vres p ->
  forall E, clocks i ((p_hscan p + 1) * (p_vscan p + 1)) E -> (forall x, ot_ready (i x) = true) ->
  forall M junk, let st := ot_run shift aw depth mem ra i in
  let o n := ot_px shift aw M (junk n) (st (E n)) (i (E n)) in
  let dv n := ot_dv shift aw (st (E n)) (i (E n)) in
  let n0 := occurrences (fun x => ot_cd (i x)) 0 t0 in
  forall T, (n0 <= T)%nat -> (forall n, (T <= n)%nat -> px_de (o n) = true -> dv n = true) ->
  let late := (n0 + underflows o dv T)%nat in
  forall g, 1 <= g -> Z.of_nat T + 30 <= Z.of_nat late + 1 + g * ((p_vscan p + 1) * (p_hscan p + 1)) ->
  forall N, (N <= T)%nat -> forall L Lmin raw s0, link_at N o L Lmin raw s0 ->
  let w q := M (wordaddr aw (regs_param shift aw R) q) in
  exists D D', (forall k, (k < 3)%nat -> (L k / 10 + 7 < D <= L k / 10 + 15)%nat) /\
  Z.of_nat D' = g * ((p_vscan p + 1) * (p_hscan p + 1)) + Z.of_nat late + Z.of_nat D - Z.of_nat N /\
  forall n, (clk p 1 0 (p_hres p) <= n)%nat ->
  let q := rx_sp (rx_run s0 raw (n + D')) in
  sp_valid q = true /\ sp_de q = tx_de p n /\ sp_hsync q = tx_hs p n /\ sp_vsync q = tx_vs p n /\
  (tx_de p n = true ->
   let d := w (pixels_before p (n - 1)) in sp_r q = slice 0 8 d /\ sp_g q = slice 8 8 d /\ sp_b q = slice 16 8 d).
Proof.
  intros shift aw depth mem ra i Haw HM u R t0 Hon p lk Hpix Hl E HE Hready M junk st o dv n0 T HT0 HT late g Hg HTg N HN L Lmin raw s0 Hlink w.
  destruct (ot_link_at shift aw depth mem ra i Haw HM u R t0 Hon lk Hpix Hl E HE Hready M junk T HT0 HT g Hg HTg N HN L Lmin raw s0 Hlink) as (D & B & P).
  cbv zeta in P. change (occurrences (fun x => ot_cd (i x)) 0 t0 + _)%nat with late in P. fold w p in P.
  set (HV := (p_vscan p + 1) * (p_hscan p + 1)) in *. pose proof (HV_pos p lk) as HP. fold HV in HP.
  pose proof (frames_nat p lk g ltac:(lia)) as HF. fold HV in HF. set (G := Z.to_nat (g * HV)) in *.
  exists D, (G + late + D - N)%nat. split; [exact B|]. split; [lia|]. intros n Hn q.
  pose proof (clk_z p lk 1 0 (p_hres p) ltac:(lia) ltac:(lia) ltac:(destruct lk; lia)) as C1.
  pose proof (clk_z p lk (g + 1) 0 (p_hres p) ltac:(lia) ltac:(lia) ltac:(destruct lk; lia)) as Cg.
  assert (C : clk p (g + 1) 0 (p_hres p) = (clk p 1 0 (p_hres p) + G)%nat) by (apply Nat2Z.inj; rewrite Nat2Z.inj_add, HF, Cg, C1; unfold HV; ring).
  assert (N1 : (1 <= n)%nat) by (assert (0 <= p_hres p) by (destruct lk; lia); assert ((1 * (p_vscan p + 1) + 0) * (p_hscan p + 1) = HV) by (unfold HV; ring); lia).
  specialize (P (n + G)%nat ltac:(lia)). replace (n + G + late - N + D)%nat with (n + (G + late + D - N))%nat in P by lia. fold q in P.
  destruct (later_scan p lk g ltac:(lia) n N1) as (S1 & S2 & S3). cbv zeta in S1, S2, S3. fold HV in S1, S2, S3. fold G in S1, S2, S3. rewrite S1, S2, S3 in P.
  destruct P as (P1 & P2 & P3 & P4 & P5). split; [exact P1|]. split; [exact P2|]. split; [exact P3|]. split; [exact P4|].
  intros DE. specialize (P5 DE). cbv zeta in P5 |- *.
  assert (WE : w (pixels_before p (n + G - 1)) = w (pixels_before p (n - 1))); [|change (M (wordaddr aw (regs_param shift aw R) (pixels_before p (n + G - 1)))) with (w (pixels_before p (n + G - 1))) in P5; rewrite WE in P5; exact P5].
  unfold w, wordaddr. replace (n + G - 1)%nat with (n - 1 + G)%nat by lia.
  pose proof (later_pixels p lk g ltac:(lia) (n - 1)) as PX. fold HV in PX. fold G in PX. rewrite PX.
  rewrite (len_pr shift aw R Hpix Hl). fold p. rewrite Z.mod_add by lia. reflexivity.
Qed.

(** C96 for a receiver that starts when the transmitter is at its clock [N]: the
    resolution it reports, and the slot it fills.  [T] may be any clock after the
    last underflow, so [N] is not limited. *)
Theorem C116_registers_to_slot :
  forall shift txaw depth txmem txra (ti : nat -> ot_in), 0 <= txaw -> length txmem = 4%nat ->
  forall u R t0, enabled_with shift txaw depth txmem txra ti u R t0 ->
  let p := timing_of R in
  params_ok p -> 24 <= p_hres p -> p_hres p + 30 <= p_hscan p + 1 -> 1 <= p_vres p <= p_vscan p ->
  p_hres p < p_hs_start p -> p_vres p <= p_vs_start p < p_vs_end p ->
  p_hres p * p_vres p < 2 ^ txaw -> nth 9 R 0 / 2 ^ shift = p_hres p * p_vres p ->
  forall E, clocks ti ((p_hscan p + 1) * (p_vscan p + 1)) E -> (forall x, ot_ready (ti x) = true) ->
  forall Mtx junk, let st := ot_run shift txaw depth txmem txra ti in
  let o n := ot_px shift txaw Mtx (junk n) (st (E n)) (ti (E n)) in
  let dv n := ot_dv shift txaw (st (E n)) (ti (E n)) in
  let n0 := occurrences (fun x => ot_cd (ti x)) 0 t0 in
  forall T, (n0 <= T)%nat -> (forall n, (T <= n)%nat -> px_de (o n) = true -> dv n = true) ->
  let late := (n0 + underflows o dv T)%nat in
  forall g, 1 <= g -> Z.of_nat T + 30 <= Z.of_nat late + 1 + g * ((p_vscan p + 1) * (p_hscan p + 1)) ->
  forall N, (N <= T)%nat -> forall L Lmin raw s0, link_at N o L Lmin raw s0 ->
  forall k m, (1 <= k)%nat -> let F := (2 ^ k)%nat in p_hres p * p_vres p = Z.of_nat (F * m) ->
  exists D, (forall k, (k < 3)%nat -> (L k / 10 + 7 < D <= L k / 10 + 15)%nat) /\
  (forall n, Z.of_nat late + Z.of_nat D + (g + 4) * ((p_vscan p + 1) * (p_hscan p + 1)) <= Z.of_nat (N + n) ->
   let r := rx_rd (rx_run s0 raw n) in rd_h r = nth 0 R 0 mod 2 ^ 11 /\ rd_v r = nth 4 R 0 mod 2 ^ 11) /\
  forall n aw align mem ra ns (i : nat -> cap_in), let dw := 32 * Z.of_nat F in
  forall K Ed B T0 w c, capturing n F 32 aw dw align mem ra ns i (pk_stream s0 raw) K Ed B m T0 w c ->
  let vsync_of v := 1 + (v * (p_vscan p + 1) + p_vs_start p) * (p_hscan p + 1) in
  Z.of_nat (N + occurrences (fun v => cap_pix (i v)) 0 T0) = vsync_of (g + 2) + Z.of_nat (late + D) + 1 ->
  let a := word_address aw align (slot_address n F 32 aw dw align mem ra ns i w c) in
  exists z, (w < z)%nat /\ slot_status n F 32 aw dw align mem ra ns i z c = 2 /\
  forall M, let M' := after M (collect (c_write n F 32 aw dw align mem ra (dma_init ns) i) w (z - w)) in
  (forall q, (q < F * m)%nat ->
     slice (32 * Z.of_nat (F - 1 - q mod F)) 32 (M' ((a + Z.of_nat (q / F)) mod 2 ^ aw)) =
     stored (Mtx (picture_word shift txaw R (Z.of_nat q)))) /\
  (forall v, (forall j, (j < m)%nat -> v <> (a + Z.of_nat j) mod 2 ^ aw) -> M' v = M v).
Proof.
  intros shift txaw depth txmem txra ti Haw HM u R t0 Hon p ok H1 H2 H3 H4 H5 HLen Hl E HE Hready Mtx junk st o dv n0 T HT0 HT late g Hg HTg
    N HN L Lmin raw s0 Hlink k m Hk F HF.
  assert (lk : link_ok p) by (constructor; assumption).
  assert (Hpix : 0 < p_hres p * p_vres p < 2 ^ txaw) by nia.
  destruct (ot_link_joined shift txaw depth txmem txra ti Haw HM u R t0 Hon lk Hpix Hl E HE Hready Mtx junk T HT0 HT g Hg HTg N HN L Lmin raw s0 Hlink)
    as (D & D' & B & ED & P).
  cbv zeta in P, ED. change (occurrences (fun x => ot_cd (ti x)) 0 t0 + _)%nat with late in ED.
  set (w := fun q => Mtx (wordaddr txaw (regs_param shift txaw R) q)) in P. fold p in P, ED.
  exists D. split; [exact B|]. split.
  { intros n Hn. apply (frame_resolution p lk w s0 raw D' 1 ltac:(lia) P). rewrite ED. rewrite Nat2Z.inj_add in Hn.
    replace ((p_hscan p + 1) * (p_vscan p + 1)) with ((p_vscan p + 1) * (p_hscan p + 1)) by ring.
    set (HV := (p_vscan p + 1) * (p_hscan p + 1)) in *. replace ((g + 4) * HV) with (g * HV + 4 * HV) in Hn by ring. lia. }
  pose proof (frame_words p lk w s0 raw D' 1 ltac:(lia) P k m Hk HF) as W.
  intros n aw align mem ra ns i dw K Ed Bu T0 ww c CG vsync_of E0 a.
  assert (E1 : Z.of_nat (occurrences (fun v => cap_pix (i v)) 0 T0) = vsync_of (1 + 1) + Z.of_nat D' + 1).
  { rewrite ED. unfold vsync_of in *. rewrite !Nat2Z.inj_add in E0.
    replace (((g + 2) * (p_vscan p + 1) + p_vs_start p) * (p_hscan p + 1)) with
      (((1 + 1) * (p_vscan p + 1) + p_vs_start p) * (p_hscan p + 1) + g * ((p_vscan p + 1) * (p_hscan p + 1))) in E0 by ring. lia. }
  destruct (frame_captured p lk (pk_stream s0 raw) (fun q => stored (w q)) 32 D' 1 ltac:(lia) (fun q => stored_range (w q)) ltac:(lia)
    k m HF W n aw align mem ra ns i K Ed Bu T0 ww c CG E1) as (z & Z1 & Z2 & Z3).
  exists z. split; [exact Z1|]. split; [exact Z2|]. intros M M'. destruct (Z3 M) as (f & A1 & A2 & A3). split; [|exact A3].
  intros q Q. etransitivity; [apply (A2 q Q)|].
  rewrite <- (w_word shift txaw R Haw Hpix Hl Mtx f (Z.of_nat q)) by (change (timing_of R) with p; rewrite HF; lia).
  do 2 f_equal. change (timing_of R) with p. rewrite HF. fold F. rewrite <- Nat2Z.inj_mul, <- Nat2Z.inj_add, Nat2Z.id. reflexivity.
Qed.
Print Assumptions C116_registers_to_slot.

(** The same in the receiver's default mode, YCbCr 4:2:2. *)
Theorem C116_registers_to_slot_422 :
  forall shift txaw depth txmem txra (ti : nat -> ot_in), 0 <= txaw -> length txmem = 4%nat ->
  forall u R t0, enabled_with shift txaw depth txmem txra ti u R t0 ->
  let p := timing_of R in
  params_ok p -> 24 <= p_hres p -> p_hres p + 30 <= p_hscan p + 1 -> 1 <= p_vres p <= p_vscan p ->
  p_hres p < p_hs_start p -> p_vres p <= p_vs_start p < p_vs_end p -> Z.even (p_hres p) = true ->
  p_hres p * p_vres p < 2 ^ txaw -> nth 9 R 0 / 2 ^ shift = p_hres p * p_vres p ->
  forall E, clocks ti ((p_hscan p + 1) * (p_vscan p + 1)) E -> (forall x, ot_ready (ti x) = true) ->
  forall Mtx junk, let st := ot_run shift txaw depth txmem txra ti in
  let o n := ot_px shift txaw Mtx (junk n) (st (E n)) (ti (E n)) in
  let dv n := ot_dv shift txaw (st (E n)) (ti (E n)) in
  let n0 := occurrences (fun x => ot_cd (ti x)) 0 t0 in
  forall T, (n0 <= T)%nat -> (forall n, (T <= n)%nat -> px_de (o n) = true -> dv n = true) ->
  let late := (n0 + underflows o dv T)%nat in
  forall g, 1 <= g -> Z.of_nat T + 30 <= Z.of_nat late + 1 + g * ((p_vscan p + 1) * (p_hscan p + 1)) ->
  forall N, (N <= T)%nat -> forall L Lmin raw s0, link_at N o L Lmin raw s0 ->
  forall k m, (1 <= k)%nat -> let F := (2 ^ k)%nat in p_hres p * p_vres p = Z.of_nat (F * m) ->
  exists D, (forall k, (k < 3)%nat -> (L k / 10 + 7 < D <= L k / 10 + 15)%nat) /\
  forall n aw align mem ra ns (i : nat -> cap_in), let dw := 16 * Z.of_nat F in
  forall K Ed B T0 w c, capturing n F 16 aw dw align mem ra ns i (ycc_pk_stream F s0 raw) K Ed B m T0 w c ->
  let vsync_of v := 1 + (v * (p_vscan p + 1) + p_vs_start p) * (p_hscan p + 1) in
  Z.of_nat (N + occurrences (fun v => cap_pix (i v)) 0 T0) = vsync_of (g + 2) + Z.of_nat (late + D) + 1 ->
  let a := word_address aw align (slot_address n F 16 aw dw align mem ra ns i w c) in
  exists z, (w < z)%nat /\ slot_status n F 16 aw dw align mem ra ns i z c = 2 /\
  forall M, let M' := after M (collect (c_write n F 16 aw dw align mem ra (dma_init ns) i) w (z - w)) in
  (forall q, (q < F * m)%nat ->
     slice (16 * Z.of_nat (F - 1 - q mod F)) 16 (M' ((a + Z.of_nat (q / F)) mod 2 ^ aw)) =
     stored_422 (fun j => Mtx (picture_word shift txaw R (Z.of_nat j))) q) /\
  (forall v, (forall j, (j < m)%nat -> v <> (a + Z.of_nat j) mod 2 ^ aw) -> M' v = M v).
Proof.
  intros shift txaw depth txmem txra ti Haw HM u R t0 Hon p ok H1 H2 H3 H4 H5 EV HLen Hl E HE Hready Mtx junk st o dv n0 T HT0 HT late g Hg HTg
    N HN L Lmin raw s0 Hlink k m Hk F HF.
  assert (lk : link_ok p) by (constructor; assumption).
  assert (Hpix : 0 < p_hres p * p_vres p < 2 ^ txaw) by nia.
  destruct (ot_link_joined shift txaw depth txmem txra ti Haw HM u R t0 Hon lk Hpix Hl E HE Hready Mtx junk T HT0 HT g Hg HTg N HN L Lmin raw s0 Hlink)
    as (D & D' & B & ED & P).
  cbv zeta in P, ED. change (occurrences (fun x => ot_cd (ti x)) 0 t0 + _)%nat with late in ED.
  set (w := fun q => Mtx (wordaddr txaw (regs_param shift txaw R) q)) in P. fold p in P, ED.
  exists D. split; [exact B|].
  pose proof (packed_words p lk (ycc_pk_stream F s0 raw) D' 11 ltac:(lia) (stored_422 w) 1 ltac:(lia)
    (ycc_vs p w s0 raw D' 1 P F) (ycc_px p lk EV w s0 raw D' 1 ltac:(lia) P F) k m Hk HF) as W.
  intros n aw align mem ra ns i dw K Ed Bu T0 ww c CG vsync_of E0 a.
  assert (E1 : Z.of_nat (occurrences (fun v => cap_pix (i v)) 0 T0) = vsync_of (1 + 1) + Z.of_nat D' + 1).
  { rewrite ED. unfold vsync_of in *. rewrite !Nat2Z.inj_add in E0.
    replace (((g + 2) * (p_vscan p + 1) + p_vs_start p) * (p_hscan p + 1)) with
      (((1 + 1) * (p_vscan p + 1) + p_vs_start p) * (p_hscan p + 1) + g * ((p_vscan p + 1) * (p_hscan p + 1))) in E0 by ring. lia. }
  destruct (frame_captured p lk (ycc_pk_stream F s0 raw) (stored_422 w) 16 D' 1 ltac:(lia) (stored_422_range w) ltac:(lia)
    k m HF W n aw align mem ra ns i K Ed Bu T0 ww c CG E1) as (z & Z1 & Z2 & Z3).
  exists z. split; [exact Z1|]. split; [exact Z2|]. intros M M'. destruct (Z3 M) as (f & A1 & A2 & A3). split; [|exact A3].
  intros q Q. etransitivity; [apply (A2 q Q)|]. fold F in Q |- *.
  assert (EF : Nat.even (F * m) = true).
  { unfold F. replace k with (S (k - 1)) by lia. cbn [Nat.pow]. rewrite !Nat.even_mul. reflexivity. }
  assert (EB : Nat.even (f * (F * m)) = true) by (rewrite Nat.even_mul, EF; apply orb_true_r).
  assert (WA : forall j, (j < F * m)%nat -> w (f * (F * m) + j)%nat = Mtx (picture_word shift txaw R (Z.of_nat j))).
  { intros j J. etransitivity; [|apply (w_word shift txaw R Haw Hpix Hl Mtx f (Z.of_nat j)); change (timing_of R) with p; rewrite HF; fold F; lia].
    unfold w. do 2 f_equal. change (timing_of R) with p. rewrite HF. fold F. rewrite <- Nat2Z.inj_mul, <- Nat2Z.inj_add, Nat2Z.id. reflexivity. }
  destruct (even_half _ q EB) as (V1 & V2 & V3). destruct (even_half _ q EF) as (_ & _ & V4).
  unfold stored_422. cbv zeta. rewrite V1, V2. replace (2 * (f * (F * m) / 2 + q / 2))%nat with (f * (F * m) + 2 * (q / 2))%nat by lia.
  assert (X1 : (2 * (q / 2) <= q)%nat) by (apply Nat.mul_div_le; lia).
  assert (X2 : (2 * (q / 2) + 1 < F * m)%nat).
  { assert (q / 2 < F * m / 2)%nat by (apply Nat.div_lt_upper_bound; lia). lia. }
  replace (f * (F * m) + 2 * (q / 2) + 1)%nat with (f * (F * m) + (2 * (q / 2) + 1))%nat by lia.
  rewrite !WA by lia. reflexivity.
Qed.
Print Assumptions C116_registers_to_slot_422.
