(** C97 in the receiver's default mode. *)
From Coq Require Import ZArith List Bool Lia Arith.
From Verif Require Import Hdl Trace AnalysisModel TimingModel TimingSpec TimingProofs VideoOutModel VideoOutProofs
  FrameProofs FrameProps HdmiModel LinkModel LinkProofs LinkProps InDmaModel InDmaProofs InDmaProps CaptureModel CaptureProofs CaptureProps
  PhyModel PhyProps StartupProofs StartupProps CscModel CscSpec YccPathModel YccPathProps YccLinkModel YccLinkProps
  OutTopModel OutTopProofs OutTopProps CaptureLiveProps FrameLiveProofs YccOutProps SerialLinkProps.
Import ListNotations.
Open Scope Z_scope.

Theorem C97_registers_to_slot_422 :
  forall shift txaw depth txmem txra (ti : nat -> ot_in), 0 <= txaw -> length txmem = 4%nat ->
  forall u R t0, enabled_with shift txaw depth txmem txra ti u R t0 ->
  let p := timing_of R in
  params_ok p -> 24 <= p_hres p -> p_hres p + 30 <= p_hscan p + 1 -> 1 <= p_vres p <= p_vscan p ->
  p_hres p < p_hs_start p -> p_vres p <= p_vs_start p < p_vs_end p -> Z.even (p_hres p) = true ->
  p_hres p * p_vres p < 2 ^ txaw -> nth 9 R 0 / 2 ^ shift = p_hres p * p_vres p ->
  forall E, clocks ti ((p_hscan p + 1) * (p_vscan p + 1)) E -> (forall x, ot_ready (ti x) = true) ->
  forall Mtx junk, let st := ot_run shift txaw depth txmem txra ti in
  let o n := ot_px shift txaw Mtx (junk n) (st (E n)) (ti (E n)) in
  let dv n := ot_dv shift txaw (st (E n)) (ti (E n)) in
  let n0 := occurrences (fun x => ot_cd (ti x)) 0 t0 in
  forall T, (n0 <= T)%nat -> (forall n, (T <= n)%nat -> px_de (o n) = true -> dv n = true) ->
  let late := (n0 + underflows o dv T)%nat in
  forall g, 1 <= g -> Z.of_nat T + 30 <= Z.of_nat late + 1 + g * ((p_vscan p + 1) * (p_hscan p + 1)) ->
  forall f c d dmin raw s0, cable f c o d raw -> (forall k, (k < 3)%nat -> (dmin <= d k <= dmin + 70)%nat) -> rx_state_ok s0 ->
  forall k m, (1 <= k)%nat -> let F := (2 ^ k)%nat in p_hres p * p_vres p = Z.of_nat (F * m) ->
  exists D, (forall k, (k < 3)%nat -> ((rx_bits c + d k) / 10 + 7 < D <= (rx_bits c + d k) / 10 + 15)%nat) /\
  forall n aw align mem ra ns (i : nat -> cap_in), let dw := 16 * Z.of_nat F in
  forall K Ed B T0 w sl, capturing n F 16 aw dw align mem ra ns i (ycc_pk_stream F s0 raw) K Ed B m T0 w sl ->
  let vsync_of v := 1 + (v * (p_vscan p + 1) + p_vs_start p) * (p_hscan p + 1) in
  Z.of_nat (occurrences (fun v => cap_pix (i v)) 0 T0) = vsync_of (g + 2) + Z.of_nat (late + D) + 1 ->
  let a := word_address aw align (slot_address n F 16 aw dw align mem ra ns i w sl) in
  exists z, (w < z)%nat /\ slot_status n F 16 aw dw align mem ra ns i z sl = 2 /\
  forall M, let M' := after M (collect (c_write n F 16 aw dw align mem ra (dma_init ns) i) w (z - w)) in
  (forall q, (q < F * m)%nat ->
     slice (16 * Z.of_nat (F - 1 - q mod F)) 16 (M' ((a + Z.of_nat (q / F)) mod 2 ^ aw)) =
     stored_422 (fun j => Mtx (picture_word shift txaw R (Z.of_nat j))) q) /\
  (forall v, (forall j, (j < m)%nat -> v <> (a + Z.of_nat j) mod 2 ^ aw) -> M' v = M v).
Proof.
  intros shift txaw depth txmem txra ti Haw HM u R t0 Hon p ok H1 H2 H3 H4 H5 EV HLen Hl E HE Hready Mtx junk st o dv n0 T HT0 HT late g Hg HTg
    f c d dmin raw s0 HC HD HS.
  exact (C96_registers_to_slot_422 shift txaw depth txmem txra ti Haw HM u R t0 Hon ok H1 H2 H3 H4 H5 EV HLen Hl E HE Hready Mtx junk T HT0 HT g Hg HTg
    (fun k => rx_bits c + d k)%nat (rx_bits c + dmin)%nat raw s0 (C97_link f c o d dmin raw s0 HC HD HS)).
Qed.
Print Assumptions C97_registers_to_slot_422.
