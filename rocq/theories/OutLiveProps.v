(** C96: from the registers of the video output to a filled slot of the receiver. *)
From Coq Require Import ZArith List Bool Lia Arith.
From Verif Require Import Hdl Trace CdcProofs AnalysisModel TimingModel TimingSpec TimingProofs VideoOutModel VideoOutProofs
  HdmiModel HdmiProofs LinkModel LinkProofs LinkProps InDmaModel FifoModel FifoProofs FifoProps CaptureModel CaptureProofs CaptureProps
  FrameProofs FrameProps InDmaProofs InDmaProps GenlockProps PhyModel PhyProps StartupProofs StartupProps OutTopModel OutTopProofs OutTopProps
  CaptureLiveProofs CaptureLiveProps FrameLiveProofs.
Import ListNotations.
Open Scope Z_scope.

(** Software enables the video output with the registers [R]; once the receiver at
    the other end of the link is delivering that picture, software there loads a
    slot: the slot gets marked as filled, its buffer then holds exactly the picture
    at the transmitter's base address, and nothing else has been written.  No
    assumption about what the receiver loses, takes or does. *)
Theorem C96_registers_to_slot :
  forall shift txaw depth txmem txra (ti : nat -> ot_in), 0 <= txaw -> length txmem = 4%nat ->
  forall u R t0, enabled_with shift txaw depth txmem txra ti u R t0 ->
  let p := timing_of R in
  params_ok p -> 24 <= p_hres p -> p_hres p + 30 <= p_hscan p + 1 -> 1 <= p_vres p <= p_vscan p ->
  p_hres p < p_hs_start p -> p_vres p <= p_vs_start p < p_vs_end p ->
  p_hres p * p_vres p < 2 ^ txaw -> nth 9 R 0 / 2 ^ shift = p_hres p * p_vres p ->
  forall E, clocks ti ((p_hscan p + 1) * (p_vscan p + 1)) E -> (forall x, ot_ready (ti x) = true) ->
  forall Mtx junk, let st := ot_run shift txaw depth txmem txra ti in
  let o n := ot_px shift txaw Mtx (junk n) (st (E n)) (ti (E n)) in
  let dv n := ot_dv shift txaw (st (E n)) (ti (E n)) in
  let n0 := occurrences (fun x => ot_cd (ti x)) 0 t0 in
  forall T, (n0 <= T)%nat -> (forall n, (T <= n)%nat -> px_de (o n) = true -> dv n = true) ->
  let late := (n0 + underflows o dv T)%nat in
  forall g, 1 <= g -> Z.of_nat T + 30 <= Z.of_nat late + 1 + g * ((p_vscan p + 1) * (p_hscan p + 1)) ->
  forall L Lmin raw s0, link o L Lmin raw s0 ->
  forall k m, (1 <= k)%nat -> let F := (2 ^ k)%nat in p_hres p * p_vres p = Z.of_nat (F * m) ->
  exists D, (forall k, (k < 3)%nat -> (L k / 10 + 7 < D <= L k / 10 + 15)%nat) /\
  forall n aw align mem ra ns (i : nat -> cap_in), let dw := 32 * Z.of_nat F in
  forall K Ed B T0 w c, capturing n F 32 aw dw align mem ra ns i (pk_stream s0 raw) K Ed B m T0 w c ->
  let vsync_of v := 1 + (v * (p_vscan p + 1) + p_vs_start p) * (p_hscan p + 1) in
  Z.of_nat (occurrences (fun v => cap_pix (i v)) 0 T0) = vsync_of (g + 2) + Z.of_nat (late + D) + 1 ->
  let a := word_address aw align (slot_address n F 32 aw dw align mem ra ns i w c) in
  exists z, (w < z)%nat /\ slot_status n F 32 aw dw align mem ra ns i z c = 2 /\
  forall M, let M' := after M (collect (c_write n F 32 aw dw align mem ra (dma_init ns) i) w (z - w)) in
  (forall q, (q < F * m)%nat ->
     slice (32 * Z.of_nat (F - 1 - q mod F)) 32 (M' ((a + Z.of_nat (q / F)) mod 2 ^ aw)) =
     stored (Mtx (picture_word shift txaw R (Z.of_nat q)))) /\
  (forall v, (forall j, (j < m)%nat -> v <> (a + Z.of_nat j) mod 2 ^ aw) -> M' v = M v).
Proof.
  intros shift txaw depth txmem txra ti Haw HM u R t0 Hon p ok H1 H2 H3 H4 H5 HLen Hl E HE Hready Mtx junk st o dv n0 T HT0 HT late g Hg HTg
    L Lmin raw s0 Hlink k m Hk F HF.
  assert (lk : link_ok p) by (constructor; assumption).
  assert (Hpix : 0 < p_hres p * p_vres p < 2 ^ txaw) by nia.
  destruct (ot_link shift txaw depth txmem txra ti Haw HM u R t0 Hon lk Hpix Hl E HE Hready Mtx junk T HT0 HT g Hg HTg L Lmin raw s0 Hlink) as (D & B & P).
  cbv zeta in P. change (occurrences (fun x => ot_cd (ti x)) 0 t0 + _)%nat with late in P.
  set (w := fun q => Mtx (wordaddr txaw (regs_param shift txaw R) q)) in P. fold p in P.
  exists D. split; [exact B|].
  pose proof (frame_words p lk w s0 raw (late + D) (g + 1) ltac:(lia) P k m Hk HF) as W.
  intros n aw align mem ra ns i dw K Ed Bu T0 ww c CG vsync_of E0 a.
  replace (g + 2) with (g + 1 + 1) in E0 by lia.
  destruct (frame_captured p lk (pk_stream s0 raw) (fun q => stored (w q)) 32 (late + D)%nat (g + 1) ltac:(lia) (fun q => stored_range (w q)) ltac:(lia)
    k m HF W n aw align mem ra ns i K Ed Bu T0 ww c CG E0) as (z & Z1 & Z2 & Z3).
  exists z. split; [exact Z1|]. split; [exact Z2|]. intros M M'. destruct (Z3 M) as (f & A1 & A2 & A3). split; [|exact A3].
  intros q Q. etransitivity; [apply (A2 q Q)|].
  rewrite <- (w_word shift txaw R Haw Hpix Hl Mtx f (Z.of_nat q)) by (change (timing_of R) with p; rewrite HF; lia).
  do 2 f_equal. change (timing_of R) with p. rewrite HF. fold F. rewrite <- Nat2Z.inj_mul, <- Nat2Z.inj_add, Nat2Z.id. reflexivity.
Qed.
Print Assumptions C96_registers_to_slot.

(** The assumptions about the receiver's side can be met for every received stream,
    word count and starting point: one pix clock in four sys clocks, a memory that
    takes a word every other clock, a FIFO of 16 words. *)
Definition ex_side (X : nat -> pk_in) (m w t : nat) : cap_in :=
  {| cap_pix := Nat.eqb (t mod 4) 0; cap_sys := true; cap_pk := X (t / 4)%nat; cap_mready := Nat.odd t;
     cap_wbusy := false; cap_size := 8 * Z.of_nat m;
     cap_sw := if Nat.eqb t w then SwStatus 0 1 else SwNone; cap_mp := 1; cap_mc := 0 |}.
Example ex_capturing : forall (X : nat -> pk_in) k lw m N0, (1 <= k)%nat -> (1 <= N0)%nat ->
  let T0 := (4 * N0 - 3)%nat in let i := ex_side X m (T0 + 20) in let aw := Z.of_nat m + 1 in let F := (2 ^ k)%nat in
  capturing 4 F lw aw (lw * Z.of_nat F) 3 (repeat (false, []) 16) 0 2 i X 1 0 6 m T0 (T0 + 20) 0 /\ occurrences (fun v => cap_pix (i v)) 0 T0 = N0.
Proof.
  intros X k lw m N0 K1 HN T0 i aw F.
  assert (PE : forall a L, occurrences (fun t => cap_pix (i t)) a L = occurrences (fun t => cap_pix (ex_live_in t)) a L) by reflexivity.
  assert (SE : forall a L, occurrences (fun t => cap_sys (i t)) a L = L) by (intros; apply all_edges).
  assert (CNT : occurrences (fun v => cap_pix (i v)) 0 T0 = N0).
  { rewrite PE. pose proof (ex_live_pix 0 T0) as Q. rewrite (ex_mod (0 + T0)) in Q.
    replace ((0 + T0) mod 4)%nat with 1%nat in Q; [change ((0 + 3) mod 4)%nat with 3%nat in Q; cbn [Nat.eqb] in Q; unfold T0 in *; lia|].
    unfold T0. apply Nat.mod_unique with (N0 - 1)%nat; lia. }
  split; [|exact CNT]. constructor.
  - lia.
  - reflexivity.
  - unfold aw. lia.
  - intros t H. rewrite PE. cbn [cap_pix i ex_side] in H. pose proof (ex_live_pix 0 t) as Q. rewrite (ex_mod (0 + t)) in Q. cbn [Nat.add] in Q. rewrite H in Q.
    apply Nat.eqb_eq in H. pose proof (Nat.div_mod t 4 ltac:(lia)) as D. cbn [cap_pk i ex_side]. f_equal. change (3 mod 4)%nat with 3%nat in Q. lia.
  - intros u x. exists (u + x)%nat. rewrite SE. lia.
  - intros u x. destruct (proj2 ex_live_running u x) as (t & A & C). exists t. rewrite PE. auto.
  - intros u t UT H. rewrite SE. destruct (Nat.le_gt_cases (t - u) 1) as [L|L]; [exact L|]. exfalso.
    pose proof (H u ltac:(lia) eq_refl) as A. pose proof (H (S u) ltac:(lia) eq_refl) as C. cbn [cap_mready i ex_side] in A, C.
    rewrite Nat.odd_succ, <- Nat.negb_odd in C. destruct (Nat.odd u); discriminate.
  - intros u t UT H. rewrite SE. destruct (Nat.le_gt_cases (t - u) 0) as [L|L]; [exact L|]. exfalso. specialize (H u ltac:(lia) eq_refl). discriminate.
  - unfold slow_enough. intros a b AB.
    pose proof (clocks_slow_enough k X (fun t => cap_pix (i t)) (fun t => cap_sys (i t)) 1 0 4 K1) as Q. unfold F. specialize (fun H => Q H a b AB).
    assert (P2 : (2 <= 2 ^ k)%nat) by (apply F_two; exact K1).
    etransitivity; [apply Q|].
    + intros u v _. rewrite PE, SE. pose proof (ex_live_pix u (v - u)). pose proof (Nat.mod_upper_bound (u + 3) 4 ltac:(lia)). nia.
    + apply Nat.add_le_mono_l. assert (4 / 2 ^ k <= 4 / 2)%nat by (apply Nat.div_le_compat_l; lia). change (4 / 2)%nat with 2%nat in *. lia.
  - apply Nat.ltb_lt. vm_compute. reflexivity.
  - lia.
  - rewrite SE. lia.
  - destruct (idle_at_first 4 F lw aw (lw * Z.of_nat F) 3 (repeat (false, []) 16) 0 2 i (T0 + 20)%nat) as [A C].
    { intros t j v T. cbn [cap_sw i ex_side]. destruct (Nat.eqb_spec t (T0 + 20)); [lia|discriminate]. }
    constructor; try assumption.
    + lia.
    + reflexivity.
    + cbn [cap_sw i ex_side]. rewrite Nat.eqb_refl. reflexivity.
    + intros t T. cbn [cap_sw i ex_side]. destruct (Nat.eqb_spec t (T0 + 20)); [lia|reflexivity].
    + intros j _. left. apply C.
  - intros t _. unfold size_words. cbn [cap_size i ex_side]. change (2 ^ 3) with 8. rewrite Z.mul_comm, Z.div_mul by lia.
    symmetry. apply Z.mod_small. split; [lia|]. apply Z.lt_trans with (Z.of_nat m + 1); [lia|]. apply Z.pow_gt_lin_r; unfold aw; lia.
Qed.
