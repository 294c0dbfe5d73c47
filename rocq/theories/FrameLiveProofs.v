(** Lemmas for C96: one whole transmitted frame in the buffer of a loaded slot. *)
From Coq Require Import ZArith List Bool Lia Arith.
From Verif Require Import Hdl Trace AnalysisModel TimingModel TimingSpec TimingProofs FrameProofs FrameProps LinkProofs LinkProps
  InDmaModel InDmaProofs InDmaProps FifoProps CaptureModel CaptureProofs CaptureProps CaptureRateProofs CaptureLiveProofs CaptureLiveProps.
Import ListNotations.
Open Scope Z_scope.

(** Words of the frames from number [g + 2] on, as windows of the packer's output. *)
Lemma frame_windows : forall p : fparam,
  (link_ok p -> forall (X : nat -> pk_in) (px : nat -> Z) D g, 0 <= g ->
  forall k m, let F := (2 ^ k)%nat in p_hres p * p_vres p = Z.of_nat (F * m) ->
  (forall f t1 t2, g + 2 <= Z.of_nat f ->
   let vsync_of v := 1 + (v * (p_vscan p + 1) + p_vs_start p) * (p_hscan p + 1) in
   Z.of_nat t1 = vsync_of (Z.of_nat f - 1) + Z.of_nat D -> Z.of_nat t2 = vsync_of (Z.of_nat f) + Z.of_nat D ->
   collect (word_out F X) (t1 + 1) (t2 - t1) =
   map (fun j => (Nat.eqb j 0, rev (map (fun q => px (f * (F * m) + q)%nat) (seq (F * j) F)))) (seq 0 m)) ->
  let vsync_of v := 1 + (v * (p_vscan p + 1) + p_vs_start p) * (p_hscan p + 1) in
  exists b words, (1 <= m)%nat /\ Z.of_nat (b O) = vsync_of (g + 1) + Z.of_nat D + 1 /\
  forall f, (b f <= b (S f))%nat /\
  collect (word_out F X) (b f) (b (S f) - b f) = map (fun j => (Nat.eqb j 0, words f j)) (seq 0 m)).
Proof.
  intros p lk X px D g Hg k m F HF P vsync_of. destruct lk as [ok H1 H2 H3 H4 H5].
  cbv zeta in P. set (g2 := Z.to_nat (g + 2)). assert (G2 : Z.of_nat g2 = (g + 2)%Z) by (unfold g2; lia).
  assert (VN : forall v, (0 <= v)%Z -> (0 <= vsync_of v)%Z).
  { intros v G. unfold vsync_of. pose proof (Z.mul_nonneg_nonneg v (p_vscan p + 1) G ltac:(lia)).
    pose proof (Z.mul_nonneg_nonneg (v * (p_vscan p + 1) + p_vs_start p) (p_hscan p + 1) ltac:(lia) ltac:(lia)). lia. }
  exists (fun f => (Z.to_nat (vsync_of (Z.of_nat f + (g + 1))%Z) + D + 1)%nat),
    (fun f j => rev (map (fun q => px ((f + g2) * (F * m) + q)%nat) (seq (F * j) F))).
  split; [destruct m; [rewrite Nat.mul_0_r in HF; nia|lia]|].
  split; [change (Z.of_nat 0 + (g + 1)) with (g + 1); pose proof (VN (g + 1) ltac:(lia)); lia|].
  set (b := fun f => (Z.to_nat (vsync_of (Z.of_nat f + (g + 1))%Z) + D + 1)%nat). intros f. fold (b f) (b (S f)).
  assert (LE : (b f <= b (S f))%nat).
  { unfold b. assert (vsync_of (Z.of_nat f + (g + 1)) <= vsync_of (Z.of_nat (S f) + (g + 1)))%Z.
    { unfold vsync_of. apply Z.add_le_mono_l, Z.mul_le_mono_nonneg_r; [lia|].
      apply Z.add_le_mono_r, Z.mul_le_mono_nonneg_r; lia. }
    pose proof (VN (Z.of_nat f + (g + 1))%Z ltac:(lia)). lia. }
  split; [exact LE|].
  rewrite <- (P (f + g2)%nat (b f - 1)%nat (b (S f) - 1)%nat).
  - f_equal; unfold b in *; lia.
  - lia.
  - pose proof (VN (Z.of_nat f + (g + 1))%Z ltac:(lia)) as V. unfold b. replace (Z.of_nat (f + g2) - 1)%Z with (Z.of_nat f + (g + 1))%Z by lia.
    unfold vsync_of in *. lia.
  - pose proof (VN (Z.of_nat (S f) + (g + 1))%Z ltac:(lia)) as V. unfold b. replace (Z.of_nat (f + g2))%Z with (Z.of_nat (S f) + (g + 1))%Z by lia.
    unfold vsync_of in *. lia.
Qed.

(** What the receiver's clocks, memory and software are assumed to do.  [w] is the
    instant at which software loads slot [c], [T0] an earlier one. *)
Record capturing (n : Z) (F : nat) (lw aw dw align : Z) (mem : list (bool * list Z)) (ra : Z) (ns : nat) (i : nat -> cap_in)
  (X : nat -> pk_in) (K E B m T0 w c : nat) : Prop := {
  cg_n : 1 <= n; cg_mem : Z.of_nat (length mem) = 2 ^ n; cg_aw : 0 < aw;
  (** the packer is fed by the receiver in the pix clock, and both clocks run *)
  cg_feed : forall t, cap_pix (i t) = true -> cap_pk (i t) = X (occurrences (fun u => cap_pix (i u)) 0 t);
  cg_sys : keeps_running (fun t => cap_sys (i t)); cg_pix : keeps_running (fun t => cap_pix (i t));
  (** the memory takes a word once in [K + 1] clocks and is done [E] clocks after the last *)
  cg_take : runs_bounded (fun t => cap_sys (i t)) (fun t => negb (cap_mready (i t))) K;
  cg_drain : runs_bounded (fun t => cap_sys (i t))
    (fun t => cap_wbusy (i t) && match c_write n F lw aw dw align mem ra (dma_init ns) i t with None => true | Some _ => false end) E;
  (** the words come slowly enough for that and for the FIFO *)
  cg_slow : slow_enough F X (fun t => cap_pix (i t)) (fun t => cap_sys (i t)) K E B;
  cg_depth : (B + E + K + 5 < (K + 1) * (2 ^ Z.to_nat n - 2))%nat;
  (** software loads the slot, with the right frame size *)
  cg_order : (T0 <= w)%nat;
  cg_after : (B + 2 * (E + K) + 10 <= occurrences (fun t => cap_sys (i t)) T0 (w - T0))%nat;
  cg_loads : loads n F lw aw dw align mem ra ns i w c;
  cg_size : forall t, (w < t)%nat -> Z.of_nat m = size_words aw align (cap_size (i t))
}.

Lemma frame_captured :
  forall p : fparam,
  (link_ok p -> forall (X : nat -> pk_in) (px : nat -> Z) lw D g, 0 <= lw -> (forall q, 0 <= px q < 2 ^ lw) -> 0 <= g ->
  forall k m, let F := (2 ^ k)%nat in p_hres p * p_vres p = Z.of_nat (F * m) ->
  (forall f t1 t2, g + 2 <= Z.of_nat f ->
   let vsync_of v := 1 + (v * (p_vscan p + 1) + p_vs_start p) * (p_hscan p + 1) in
   Z.of_nat t1 = vsync_of (Z.of_nat f - 1) + Z.of_nat D -> Z.of_nat t2 = vsync_of (Z.of_nat f) + Z.of_nat D ->
   collect (word_out F X) (t1 + 1) (t2 - t1) =
   map (fun j => (Nat.eqb j 0, rev (map (fun q => px (f * (F * m) + q)%nat) (seq (F * j) F)))) (seq 0 m)) ->
  forall n aw align mem ra ns (i : nat -> cap_in), let dw := lw * Z.of_nat F in
  forall K E B T0 w c, capturing n F lw aw dw align mem ra ns i X K E B m T0 w c ->
  let vsync_of v := 1 + (v * (p_vscan p + 1) + p_vs_start p) * (p_hscan p + 1) in
  Z.of_nat (occurrences (fun u => cap_pix (i u)) 0 T0) = vsync_of (g + 1) + Z.of_nat D + 1 ->
  let a := word_address aw align (slot_address n F lw aw dw align mem ra ns i w c) in
  exists z, (w < z)%nat /\ slot_status n F lw aw dw align mem ra ns i z c = 2 /\
  forall M, let M' := after M (collect (c_write n F lw aw dw align mem ra (dma_init ns) i) w (z - w)) in
  exists f, g + 2 <= Z.of_nat f /\
  (forall q, (q < F * m)%nat ->
     slice (lw * Z.of_nat (F - 1 - q mod F)) lw (M' ((a + Z.of_nat (q / F)) mod 2 ^ aw)) = px (f * (F * m) + q)%nat) /\
  (forall v, (forall j, (j < m)%nat -> v <> (a + Z.of_nat j) mod 2 ^ aw) -> M' v = M v)).
Proof.
  intros p lk X px lw D g W PX Hg k m F HF P n aw align mem ra ns i dw K E B T0 w c CG vsync_of E0 a.
  destruct CG as [N HM Haw HX Hsys Hpix H1 H2 H3 HD TW HW LD SZ].
  destruct (frame_windows p lk X px D g Hg k m HF P) as (b & words & M1 & B0 & HB). cbv zeta in B0. fold F in HB.
  assert (HT : occurrences (fun u => cap_pix (i u)) 0 T0 = b O) by (unfold vsync_of in E0; lia).
  destruct (capture_after_load n F lw aw dw align mem ra ns i N HM Haw K E B X HX H1 H2 H3 HD Hsys Hpix b m words M1 HB T0 HT w c TW HW LD SZ)
    as (x & y & z & (XY & WX) & YZ & OLD & ST & CNT & LAST & AD & SS & WR).
  exists (S z). split; [lia|]. split; [exact SS|]. intros M M'. unfold M'. rewrite WR. unfold a. rewrite <- AD.
  apply (frame_to_memory p lk X px lw D g W PX Hg k m HF P n aw align mem ra (dma_init ns) i N HM Haw HX T0 x y XY E0); try assumption.
  - intros t T. apply (lv_no_loss n F lw aw dw align mem ra (dma_init ns) i N HM K E B X HX H1 H2 H3 HD).
  - apply SZ. lia.
Qed.
