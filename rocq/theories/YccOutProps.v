(** C96 in the receiver's default mode: from the registers of the video output to a
    slot filled with the picture as YCbCr 4:2:2. *)
From Coq Require Import ZArith List Bool Lia Arith.
From Verif Require Import Hdl Trace AnalysisModel TimingModel TimingSpec TimingProofs VideoOutModel VideoOutProofs
  FrameProofs FrameProps HdmiModel LinkModel LinkProofs LinkProps InDmaModel InDmaProofs InDmaProps CaptureModel CaptureProofs CaptureProps
  PhyModel PhyProps StartupProofs StartupProps CscModel CscSpec YccPathModel YccPathProps YccLinkModel YccLinkProps
  OutTopModel OutTopProofs OutTopProps CaptureLiveProps FrameLiveProofs.
Import ListNotations.
Open Scope Z_scope.

Theorem C96_registers_to_slot_422 :
  forall shift txaw depth txmem txra (ti : nat -> ot_in), 0 <= txaw -> length txmem = 4%nat ->
  forall u R t0, enabled_with shift txaw depth txmem txra ti u R t0 ->
  let p := timing_of R in
  params_ok p -> 24 <= p_hres p -> p_hres p + 30 <= p_hscan p + 1 -> 1 <= p_vres p <= p_vscan p ->
  p_hres p < p_hs_start p -> p_vres p <= p_vs_start p < p_vs_end p -> Z.even (p_hres p) = true ->
  p_hres p * p_vres p < 2 ^ txaw -> nth 9 R 0 / 2 ^ shift = p_hres p * p_vres p ->
  forall E, clocks ti ((p_hscan p + 1) * (p_vscan p + 1)) E -> (forall x, ot_ready (ti x) = true) ->
  forall Mtx junk, let st := ot_run shift txaw depth txmem txra ti in
  let o n := ot_px shift txaw Mtx (junk n) (st (E n)) (ti (E n)) in
  let dv n := ot_dv shift txaw (st (E n)) (ti (E n)) in
  let n0 := occurrences (fun x => ot_cd (ti x)) 0 t0 in
  forall T, (n0 <= T)%nat -> (forall n, (T <= n)%nat -> px_de (o n) = true -> dv n = true) ->
  let late := (n0 + underflows o dv T)%nat in
  forall g, 1 <= g -> Z.of_nat T + 30 <= Z.of_nat late + 1 + g * ((p_vscan p + 1) * (p_hscan p + 1)) ->
  forall L Lmin raw s0, link o L Lmin raw s0 ->
  forall k m, (1 <= k)%nat -> let F := (2 ^ k)%nat in p_hres p * p_vres p = Z.of_nat (F * m) ->
  exists D, (forall k, (k < 3)%nat -> (L k / 10 + 7 < D <= L k / 10 + 15)%nat) /\
  forall n aw align mem ra ns (i : nat -> cap_in), let dw := 16 * Z.of_nat F in
  forall K Ed B T0 w c, capturing n F 16 aw dw align mem ra ns i (ycc_pk_stream F s0 raw) K Ed B m T0 w c ->
  let vsync_of v := 1 + (v * (p_vscan p + 1) + p_vs_start p) * (p_hscan p + 1) in
  Z.of_nat (occurrences (fun v => cap_pix (i v)) 0 T0) = vsync_of (g + 2) + Z.of_nat (late + D) + 1 ->
  let a := word_address aw align (slot_address n F 16 aw dw align mem ra ns i w c) in
  exists z, (w < z)%nat /\ slot_status n F 16 aw dw align mem ra ns i z c = 2 /\
  forall M, let M' := after M (collect (c_write n F 16 aw dw align mem ra (dma_init ns) i) w (z - w)) in
  (forall q, (q < F * m)%nat ->
     slice (16 * Z.of_nat (F - 1 - q mod F)) 16 (M' ((a + Z.of_nat (q / F)) mod 2 ^ aw)) =
     stored_422 (fun j => Mtx (picture_word shift txaw R (Z.of_nat j))) q) /\
  (forall v, (forall j, (j < m)%nat -> v <> (a + Z.of_nat j) mod 2 ^ aw) -> M' v = M v).
Proof.
  intros shift txaw depth txmem txra ti Haw HM u R t0 Hon p ok H1 H2 H3 H4 H5 EV HLen Hl E HE Hready Mtx junk st o dv n0 T HT0 HT late g Hg HTg
    L Lmin raw s0 Hlink k m Hk F HF.
  assert (lk : link_ok p) by (constructor; assumption).
  assert (Hpix : 0 < p_hres p * p_vres p < 2 ^ txaw) by nia.
  destruct (ot_link shift txaw depth txmem txra ti Haw HM u R t0 Hon lk Hpix Hl E HE Hready Mtx junk T HT0 HT g Hg HTg L Lmin raw s0 Hlink) as (D & B & P).
  cbv zeta in P. change (occurrences (fun x => ot_cd (ti x)) 0 t0 + _)%nat with late in P.
  set (w := fun q => Mtx (wordaddr txaw (regs_param shift txaw R) q)) in P. fold p in P.
  exists D. split; [exact B|].
  pose proof (packed_words p lk (ycc_pk_stream F s0 raw) (late + D) 11 ltac:(lia) (stored_422 w) (g + 1) ltac:(lia)
    (ycc_vs p w s0 raw (late + D) (g + 1) P F) (ycc_px p lk EV w s0 raw (late + D) (g + 1) ltac:(lia) P F) k m Hk HF) as W.
  intros n aw align mem ra ns i dw K Ed Bu T0 ww c CG vsync_of E0 a.
  replace (g + 2) with (g + 1 + 1) in E0 by lia.
  destruct (frame_captured p lk (ycc_pk_stream F s0 raw) (stored_422 w) 16 (late + D)%nat (g + 1) ltac:(lia) (stored_422_range w) ltac:(lia)
    k m HF W n aw align mem ra ns i K Ed Bu T0 ww c CG E0) as (z & Z1 & Z2 & Z3).
  exists z. split; [exact Z1|]. split; [exact Z2|]. intros M M'. destruct (Z3 M) as (f & A1 & A2 & A3). split; [|exact A3].
  intros q Q. etransitivity; [apply (A2 q Q)|]. fold F in Q |- *.
  assert (EF : Nat.even (F * m) = true).
  { unfold F. replace k with (S (k - 1)) by lia. cbn [Nat.pow]. rewrite !Nat.even_mul. reflexivity. }
  assert (EB : Nat.even (f * (F * m)) = true) by (rewrite Nat.even_mul, EF; apply orb_true_r).
  assert (WA : forall j, (j < F * m)%nat -> w (f * (F * m) + j)%nat = Mtx (picture_word shift txaw R (Z.of_nat j))).
  { intros j J. etransitivity; [|apply (w_word shift txaw R Haw Hpix Hl Mtx f (Z.of_nat j)); change (timing_of R) with p; rewrite HF; fold F; lia].
    unfold w. do 2 f_equal. change (timing_of R) with p. rewrite HF. fold F. rewrite <- Nat2Z.inj_mul, <- Nat2Z.inj_add, Nat2Z.id. reflexivity. }
  destruct (even_half _ q EB) as (E1 & E2 & E3). destruct (even_half _ q EF) as (_ & _ & E4).
  unfold stored_422. cbv zeta. rewrite E1, E2. replace (2 * (f * (F * m) / 2 + q / 2))%nat with (f * (F * m) + 2 * (q / 2))%nat by lia.
  assert (X1 : (2 * (q / 2) <= q)%nat) by (apply Nat.mul_div_le; lia).
  assert (X2 : (2 * (q / 2) + 1 < F * m)%nat).
  { assert (q / 2 < F * m / 2)%nat by (apply Nat.div_lt_upper_bound; lia). lia. }
  replace (f * (F * m) + 2 * (q / 2) + 1)%nat with (f * (F * m) + (2 * (q / 2) + 1))%nat by lia.
  rewrite !WA by lia. reflexivity.
Qed.
Print Assumptions C96_registers_to_slot_422.

(** The hypotheses on the output and the mode are those of [ex_ot_on],
    [ex_ot_clocks] and [ex_ot_hyps] with [ex_422]; those on the receiver's side are
    met for every stream by [ex_capturing] of OutLiveProps.v. *)
Example ex_422_regs : timing_of ex_ot_regs = ex_mode /\ Z.even (p_hres (timing_of ex_ot_regs)) = true.
Proof. split; reflexivity. Qed.
