(** C143: the pictures of an HDMI source in memory, one after the other. *)
From Coq Require Import ZArith List Bool Lia Arith.
From Verif Require Import Hdl Trace CdcProofs TmdsSpec CharSyncProps ChanSyncModel HdmiProps AnalysisModel HdmiModel HdmiProofs HdmiRxModel HdmiRxProps FrameProofs FrameProps LinkModel LinkProps
  HdmiSrcSpec HdmiSrcProofs HdmiSrcProps InDmaModel InDmaProofs InDmaProps FifoModel FifoProofs FifoProps
  CaptureModel CaptureProofs CaptureProps CaptureRateProofs CaptureLiveProofs CaptureLiveProps HdmiSlotProps FairProofs FairProps PictureOrderProps PictureSkipProps PictureFlowProps DriverProps.
Import ListNotations.
Open Scope nat_scope.

(** All words of a frame are out two clocks after its last pixel. *)
Lemma words_by : forall k, 1 <= k -> let F := 2 ^ k in forall (X : nat -> pk_in) t0 t1 t2 t3 m p,
  frame_between X t0 t1 -> frame_between X t1 t2 -> frame_between X t2 t3 ->
  length (collect (pixel_in X) (t0 + 1) (t1 - t0 - 1)) mod F = 0 ->
  length (collect (pixel_in X) (t1 + 1) (t2 - t1 - 1)) = F * m ->
  t1 <= p < t2 -> (forall t, p < t < t2 -> pki_we (X t) = false) ->
  length (collect (word_out F X) (t1 + 2) (p - t1)) = m.
Proof.
  intros k K F X t0 t1 t2 t3 m p F0 F1 F2 L0 L1 P NP.
  pose proof (frame_of_words k K X t0 t1 t2 t3 m F0 F1 F2 L0 L1) as W. fold F in W. apply (f_equal (@length _)) in W. rewrite map_length, seq_length in W.
  assert (HF : 2 <= F). { unfold F. destruct k as [|k]; [lia|]. cbn [Nat.pow]. pose proof (Nat.pow_nonzero 2 k ltac:(lia)). lia. }
  replace (t2 - t1) with ((p - t1) + (t2 - p)) in W by lia. rewrite collect_app, app_length in W.
  replace (t1 + 2 + (p - t1)) with (p + 2) in W by lia.
  assert (Z : collect (word_out F X) (p + 2) (t2 - p) = []); [|rewrite Z in W; cbn [length] in W; lia].
  assert (NONE : forall n, p + 2 <= n < p + 2 + (t2 - p) -> word_out F X n = None).
  { intros n N. destruct (Nat.eq_dec n (t2 + 1)) as [->|].
    - destruct (word_out F X (t2 + 1)) as [[sof w]|] eqn:WO; [|reflexivity]. exfalso.
      destruct (C22_sof_partial k K X t1 t2 t3) with (n := t2 + 1) (sof := sof) (w := w) as [_ Y]; try assumption.
      + split; [exact F1|]. rewrite L1. fold F. rewrite Nat.mul_comm, Nat.mod_mul by lia. lia.
      + pose proof (proj1 F2). lia.
      + lia.
    - unfold word_out, pk_push. destruct n as [|t]; [lia|].
      assert (V : pk_valid (pk_run F X (S t)) = false); [|rewrite V; reflexivity].
      change (pk_run F X (S t)) with (pk_step F (pk_run F X t) (X t)). unfold pk_step; cbn [pk_valid]. rewrite (NP t ltac:(lia)).
      assert (NF : pk_new_frame (pk_run F X t) (X t) = false); [|rewrite NF; reflexivity].
      unfold pk_new_frame. assert (R : rises (fun t => pki_vsync (X t)) t = false) by (apply (proj2 (proj2 F1)); lia).
      unfold rises in R. destruct t as [|t]; [lia|]. exact R. }
  clear W. revert NONE. generalize (p + 2) as a, (t2 - p) as L. intros a L NONE. induction L as [|L IH]; [reflexivity|]. cbn [collect]. rewrite IH by (intros; apply NONE; lia).
  rewrite NONE by lia. reflexivity.
Qed.

(** From [x] to [z] memory receives the picture [p], [F] pixels in a word with the first in the highest lane, in the buffer of slot [c], and
    nothing else; the slot is loaded until it is marked at [z]. *)
Definition shows (n : Z) (F : nat) (lw aw dw align : Z) (mem : list (bool * list Z)) (ra : Z) (ns : nat) (i : nat -> cap_in)
    (m : nat) (p : list Z) (x z c : nat) : Prop :=
  x < z /\ c < ns /\ (forall t, x <= t < z -> Z.odd (slot_status n F lw aw dw align mem ra ns i t c) = true) /\
  slot_status n F lw aw dw align mem ra ns i z c = 2%Z /\
  let a := word_address aw align (slot_address n F lw aw dw align mem ra ns i x c) in
  forall M, let M' := after M (collect (c_write n F lw aw dw align mem ra (dma_init ns) i) x (z - x)) in
  (forall q, q < F * m -> slice (lw * Z.of_nat (F - 1 - q mod F)) lw (M' ((a + Z.of_nat (q / F)) mod 2 ^ aw)%Z) = nth q p 0%Z) /\
  (forall v, (forall j, j < m -> v <> ((a + Z.of_nat j) mod 2 ^ aw)%Z) -> M' v = M v).

Lemma fills_shows : forall n F lw aw align mem ra ns i m words x z c f p, (0 < lw)%Z -> F <> 0 ->
  (forall q, (0 <= nth q p 0 < 2 ^ lw)%Z) ->
  (forall j, words f j = rev (map (fun q => nth q p 0%Z) (seq (F * j) F))) ->
  let dw := (lw * Z.of_nat F)%Z in
  fills n F lw aw dw align mem ra ns i m words x z c f -> shows n F lw aw dw align mem ra ns i m p x z c.
Proof.
  intros n F lw aw align mem ra ns i m words x z c f p LW F0 RP WD dw (XZ & CN & LD & FL & MEM).
  split; [exact XZ|]. split; [exact CN|]. split; [exact LD|]. split; [exact FL|]. intros a M M'.
  destruct (MEM M) as [A1 A2]. split; [|exact A2].
  intros q Hq. assert (J : q / F < m) by (apply Nat.div_lt_upper_bound; [exact F0|exact Hq]).
  pose proof (Nat.mod_upper_bound q F F0) as QM. pose proof (Nat.div_mod q F F0) as DM.
  unfold M', a. rewrite (A1 (q / F) J), joined_lanes, WD. set (l0 := rev (map (fun q => nth q p 0%Z) (seq (F * (q / F)) F))).
  assert (LL : length l0 = F) by (unfold l0; rewrite rev_length, map_length, seq_length; reflexivity).
  assert (RG : forall v, In v l0 -> (0 <= v < 2 ^ lw)%Z).
  { intros v V. apply in_rev in V. apply in_map_iff in V as (u & <- & _). apply RP. }
  pose proof (lanes_range lw l0 ltac:(lia) RG) as LR. rewrite LL in LR. fold dw in LR. rewrite Z.mod_small by exact LR.
  rewrite (lanes_slice lw l0 ltac:(lia) RG) by lia. unfold l0. rewrite rev_nth by (rewrite map_length, seq_length; lia).
  rewrite map_length, seq_length. replace (F - S (F - 1 - q mod F)) with (q mod F) by lia.
  rewrite (nth_indep _ 0%Z (nth 0 p 0%Z)) by (rewrite map_length, seq_length; lia).
  rewrite (map_nth (fun q => nth q p 0%Z)), seq_nth by lia. f_equal. lia.
Qed.

(** The source of C137 with software that never writes a register of a loaded slot.  A capture starts whenever the DMA is idle
    and a slot is loaded.  Every capture puts one picture of the source into a
    slot, a later one than all captures before, and is finished at most [B + 3 * E + 2 * K + 11] sys clocks after the last pixel [p] of the
    picture has passed the receiver and the packer.  If software always has another slot loaded when one is filled, there is an [N]-th next capture
    for every [N] and at least every second picture is stored; and every picture is, if from the last pixel of each to the next rise of
    vsync there are more sys clocks than that. *)
Theorem C143_hdmi_video : forall Q W, hdmi_source Q W -> forall L raw, wired W L raw ->
  forall s0, rx_ok (rh_rx s0) -> one_deep s0 -> forall a0 b1 b2, lock_sequence Q a0 b1 b2 ->
  exists E0, (forall k, k < 3 -> L k / 10 + 6 < E0 <= L k / 10 + 14) /\
  forall hs vs ph pv, sync_coded Q hs vs ph pv -> quiet_after_line Q hs vs ->
  forall l, b2 + 20 <= l -> line_ends Q l = true ->
  forall k m r, 1 <= k -> 1 <= m -> let F := 2 ^ k in hdmi_frames Q vs (F * m) r -> l < r 0 ->
  forall n aw align mem ra ns (i : nat -> cap_in), let dw := (32 * Z.of_nat F)%Z in
  (1 <= n)%Z -> Z.of_nat (length mem) = (2 ^ n)%Z -> (0 < aw)%Z -> 1 <= ns ->
  let x_in t := rx_pk_in (rh_rx (rh_run s0 raw hdmi_mode t)) in
  let pix := occurrences (fun t => cap_pix (i t)) 0 in
  let sys u t := occurrences (fun t => cap_sys (i t)) u (t - u) in
  (forall t, cap_pix (i t) = true -> cap_pk (i t) = x_in (pix t)) ->
  forall K E B,
  runs_bounded (fun t => cap_sys (i t)) (fun t => negb (cap_mready (i t))) K ->
  runs_bounded (fun t => cap_sys (i t))
    (fun t => cap_wbusy (i t) && match c_write n F 32 aw dw align mem ra (dma_init ns) i t with None => true | Some _ => false end) E ->
  slow_enough F x_in (fun t => cap_pix (i t)) (fun t => cap_sys (i t)) K E B ->
  B + E + K + 5 < (K + 1) * (2 ^ Z.to_nat n - 2) ->
  keeps_running (fun t => cap_sys (i t)) -> keeps_running (fun t => cap_pix (i t)) ->
  forall T0, pix T0 = r 1 + E0 + 2 ->
  (forall t, T0 <= t -> Z.of_nat m = size_words aw align (cap_size (i t))) ->
  let loaded t c := Z.odd (slot_status n F 32 aw dw align mem ra ns i t c) = true in
  (forall t j, cap_sys (i t) = true -> loaded t j -> match cap_sw (i t) with SwNone => True | SwStatus k _ => k <> j | SwAddr k _ => k <> j end) ->
  let starts := c_starts n F 32 aw dw align mem ra (dma_init ns) i in
  let settled t := T0 <= t /\ B + 2 * (E + K) + 10 <= sys T0 t in
  let last f p := r f <= p < r (S f) /\ forall t, p < t < r (S f) -> is_pix (Q t) = false in
  exists fr : nat -> nat,
  (forall u c, dma_idle n F 32 aw dw align mem ra ns i u -> c < ns -> loaded u c -> exists x0, next_start n F 32 aw dw align mem ra ns i u x0 /\
   (settled u -> forall v g, 1 <= g -> 1 <= sys u v -> pix v <= r g + E0 + 2 -> fr x0 <= g)) /\
  (forall x, settled x -> starts x = true ->
   exists z c, length (picture Q r (fr x)) = F * m /\ shows n F 32 aw dw align mem ra ns i m (picture Q r (fr x)) x z c /\
   (forall x2, x < x2 -> starts x2 = true -> z <= x2 /\ fr x < fr x2) /\
   forall p u, last (fr x) p -> p + E0 + 2 <= pix u -> sys u z <= B + 3 * E + 2 * K + 11) /\
  (forall x0, relayed n F 32 aw dw align mem ra ns i m (fun x => x0 <= x) ->
   settled x0 -> starts x0 = true ->
   forall N, exists x, x0 <= x /\ starts x = true /\ occurrences starts (S x0) (x - x0) = N /\ fr x0 + N <= fr x <= fr x0 + 2 * N /\
   ((forall f, 1 <= f -> exists p u, last f p /\ pix u = p + E0 + 2 /\
      forall w, r (S f) + E0 + 2 < pix w -> B + 3 * E + 2 * K + 11 < sys u w) -> fr x = fr x0 + N)).
Proof.
  intros Q W HQ L raw HW s0 OK OD a0 b1 b2 LK.
  destruct (C131_hdmi_source Q W HQ L raw HW s0 OK OD a0 b1 b2 LK) as (E0 & BE & DL & SY).
  exists E0. split; [exact BE|]. intros hs vs ph pv SC QU l HL LE k m r K1 M1 F HFR HR0 n aw align mem ra ns i dw N HM Haw NS x_in pix sys HX
    K E B H1 H2 H3 HD Hsys Hpix T0 HT SZ loaded POL starts settled last.
  pose proof (SY hs vs ph pv SC QU l HL LE) as DS.
  assert (RM : forall f, r 0 <= r f) by (induction f as [|f IH]; [lia|destruct (HFR f); lia]).
  assert (RV : forall x, l < x -> rises (fun t => pki_vsync (x_in t)) (x + E0) = vs_rises (seen_vs Q vs) x).
  { intros x X. unfold rises, vs_rises, seen_vs. replace (x + E0) with (S (x - 1 + E0)) by lia. rewrite andb_comm.
    change (pki_vsync (x_in (x - 1 + E0))) with (sp_vsync (rh_out s0 raw hdmi_mode (x - 1 + E0))). replace (S (x - 1 + E0)) with (x + E0) by lia.
    change (pki_vsync (x_in (x + E0))) with (sp_vsync (rh_out s0 raw hdmi_mode (x + E0))).
    rewrite (proj2 (DS x ltac:(lia))), (proj2 (DS (x - 1) ltac:(lia))). reflexivity. }
  assert (FB : forall f, frame_between x_in (r f + E0) (r (S f) + E0)).
  { intros f. destruct (HFR f) as (A1 & A2 & A3 & _). pose proof (RM f). split; [lia|]. split; [rewrite RV by lia; exact A2|].
    intros t T. replace t with (t - E0 + E0) by lia. rewrite RV by lia. apply A3. lia. }
  assert (PXE : forall t, l < t -> pixel_in x_in (t + E0) = stored_slot Q t).
  { intros t T. destruct (DL t ltac:(lia)) as (V & D & P). unfold stored_slot, pixel_in, x_in, rx_pk_in. cbn [pki_we pki_px].
    unfold rh_out in V, D, P. rewrite V, D. cbn [andb]. destruct (is_pix (Q t)); [|reflexivity]. rewrite <- (P eq_refl). reflexivity. }
  assert (PX : forall f, collect (pixel_in x_in) (r f + E0 + 1) (r (S f) + E0 - (r f + E0) - 1) = picture Q r f).
  { intros f. pose proof (RM f). unfold picture. replace (r (S f) + E0 - (r f + E0) - 1) with (r (S f) - r f - 1) by lia.
    replace (r f + E0 + 1) with (r f + 1 + E0) by lia. rewrite (collect_shift _ (pixel_in x_in) E0 (r f + 1)). apply collect_ext. intros t T.
    apply PXE. lia. }
  assert (PL : forall f, length (picture Q r f) = F * m).
  { intros f. destruct (HFR f) as (_ & _ & _ & A4). rewrite <- A4. unfold picture. rewrite collect_length. apply occurrences_ext.
    intros t _. unfold stored_slot. destruct (is_pix (Q t)); reflexivity. }
  assert (F0 : F <> 0) by (apply Nat.pow_nonzero; lia).
  set (words := fun f j => rev (map (fun q => nth q (picture Q r (f + 1)) 0%Z) (seq (F * j) F))).
  set (b := fun f => r (f + 1) + E0 + 2).
  assert (HB : forall f, b f <= b (S f) /\ collect (word_out F x_in) (b f) (b (S f) - b f) = map (fun j => (Nat.eqb j 0, words f j)) (seq 0 m)).
  { intros f. unfold b. replace (S f + 1) with (S (f + 1)) by lia. destruct (HFR (f + 1)) as (A1 & _). split; [lia|].
    pose proof (frame_of_words k K1 x_in (r f + E0) (r (S f) + E0) (r (S (S f)) + E0) (r (S (S (S f))) + E0) m (FB f) (FB (S f)) (FB (S (S f)))) as X.
    rewrite !PX, !PL in X. fold F in X. replace (f + 1) with (S f) in * by lia.
    replace (r (S (S f)) + E0 + 2 - (r (S f) + E0 + 2)) with (r (S (S f)) + E0 - (r (S f) + E0)) by lia.
    rewrite X; [|rewrite Nat.mul_comm; apply Nat.mod_mul; exact F0|reflexivity]. unfold words. rewrite Nat.add_1_r. reflexivity. }
  assert (LAST : forall f p, last (f + 1) p -> length (collect (word_out F x_in) (b f) (p - r (f + 1))) = m).
  { intros f p [P1 P2]. unfold b. pose proof (RM (f + 1)). replace (f + 1) with (S f) in * by lia. replace (p - r (S f)) with (p + E0 - (r (S f) + E0)) by lia.
    apply (words_by k K1 x_in (r f + E0) (r (S f) + E0) (r (S (S f)) + E0) (r (S (S (S f))) + E0) m (p + E0) (FB f) (FB (S f)) (FB (S (S f)))).
    - rewrite PX, PL. rewrite Nat.mul_comm. apply Nat.mod_mul. exact F0.
    - rewrite PX. apply PL.
    - lia.
    - intros t T. pose proof (PXE (t - E0) ltac:(lia)) as G. replace (t - E0 + E0) with t in G by lia. unfold stored_slot, pixel_in in G.
      rewrite (P2 (t - E0)) in G by lia. destruct (pki_we (x_in t)); [discriminate|reflexivity]. }
  assert (SM : streaming n F 32 aw dw align mem ra ns i x_in K E B b m words T0).
  { constructor; try assumption. }
  destruct (flow n F 32 aw dw align mem ra ns i x_in K E B b m words T0 SM) as (fr & FIRST & P & R).
  exists (fun x => fr x + 1). split; [|split].
  { intros u c ID CN LC. destruct (idle_starts n F 32 aw dw align mem ra ns i x_in K E B b m words T0 SM u c ID CN LC) as (x & NX). exists x. split; [exact NX|].
    intros SU v g G1 OV PV. pose proof (FIRST u c x SU ID CN LC NX v (g - 1) OV) as H. unfold b in H. replace (g - 1 + 1) with g in H by lia. specialize (H PV). lia. }
  - intros x SX ST. destruct (P x SX ST) as (z & c & FI & ORD & LAT). exists z, c. split; [apply PL|]. split.
    { apply (fills_shows n F 32 aw align mem ra ns i m words x z c (fr x) (picture Q r (fr x + 1)) ltac:(lia) F0); [|reflexivity|exact FI].
      intros q. apply (picture_range Q W HQ). }
    split; [intros x2 X2 S2; destruct (ORD x2 X2 S2); split; lia|].
    intros p u LP PU. apply (LAT u (p - r (fr x + 1))); [|apply LAST; exact LP]. destruct LP as [LP _]. change (b (fr x) + (p - r (fr x + 1)) <= pix u). unfold b. lia.
  - intros x0 QUICK S0 ST0 n0. destruct (R x0 QUICK S0 ST0 n0) as (x & I1 & I2 & I3 & I4 & I5). exists x.
    split; [exact I1|]. split; [exact I2|]. split; [exact I3|]. split; [lia|]. intros GAP. rewrite I5; [lia|].
    intros f. destruct (GAP (f + 1) ltac:(lia)) as (p & u & LP & PU & G). exists u, (p - r (f + 1)). pose proof LP as [LP1 _].
    split; [change (pix u = b f + (p - r (f + 1))); unfold b; lia|]. split; [apply LAST; exact LP|].
    intros w HW'. apply G. unfold b in HW'. replace (f + 1 + 1) with (S (f + 1)) in HW' by lia. exact HW'.
Qed.
Print Assumptions C143_hdmi_video.

(** ** A case: the source of HdmiSlotProps.v, two slots and the driver of DriverProps.v from instant 6000 on *)
Definition hd_mem : list (bool * list Z) := repeat fe_word0 16.
Definition hd_in : nat -> cap_in := driven 4 (2 ^ 1) 32 8 (32 * Z.of_nat (2 ^ 1)) 3 hd_mem 0 (60 * 100) ex_slot_in.
Lemma hd_sys : forall a k, occurrences (fun t => cap_sys (hd_in t)) a k = k.
Proof. intros a k. change (fun t => cap_sys (hd_in t)) with (fun _ : nat => true). apply fl_occ. Qed.
Lemma hd_pix : forall k, occurrences (fun t => cap_pix (hd_in t)) 0 (4 * k) = k.
Proof.
  intros k. change (fun t => cap_pix (hd_in t)) with (fun t => cap_pix (ex_live_in t)). pose proof (ex_live_pix 0 (4 * k)) as Q.
  change ((0 + 3) mod 4) with 3 in Q. replace (0 + 4 * k + 3) with (3 + k * 4) in Q by lia. rewrite Nat.mod_add in Q by lia. change (3 mod 4) with 3 in Q. lia.
Qed.
Lemma hd_pix_le : forall k w, k < occurrences (fun t => cap_pix (hd_in t)) 0 w -> 4 * k < w.
Proof.
  intros k w H. destruct (Nat.lt_ge_cases (4 * k) w) as [L|L]; [exact L|exfalso]. pose proof (hd_pix k) as Q.
  replace (4 * k) with (w + (4 * k - w)) in Q by lia. rewrite occ_app in Q. lia.
Qed.
Lemma hd_last : forall f, ex_r f <= ex_r f + 476 < ex_r (S f) /\ forall t, ex_r f + 476 < t < ex_r (S f) -> is_pix (ex_src t) = false.
Proof.
  intros f. split; [unfold ex_r; lia|]. intros t T. unfold ex_r in T. replace t with (552 * f + (t - 552 * f)) by lia. rewrite ex_src_per.
  assert (G : forallb (fun t => negb (is_pix (ex_src t))) (seq 900 75) = true) by (vm_compute; reflexivity).
  rewrite forallb_forall in G. apply negb_true_iff. apply G. apply in_seq. lia.
Qed.
Example ex_hdmi_video : exists f0, forall f, f0 <= f -> exists x z c, 60 * 100 < x /\
  shows 4 2 32 8 64 3 hd_mem 0 2 hd_in 45 (picture ex_src ex_r f) x z c.
Proof.
  destruct ex_source as (S1 & S2 & S3 & S4 & S5 & S6 & S7 & _ & S9).
  destruct (C143_hdmi_video ex_src ex_W S1 ex_L ex_hraw2 S5 rh_init S6 S7 1 40 72 S4) as (E0 & HE & X).
  assert (EB : E0 <= 20). { specialize (HE 0 ltac:(lia)). assert (ex_L 0 / 10 <= 6) by (apply Nat.leb_le; vm_compute; reflexivity). lia. }
  destruct (X ex_hs ex_vs true false S2 S3 210) with (k := 1) (m := 45) (r := ex_r) (n := 4%Z) (aw := 8%Z) (align := 3%Z) (mem := hd_mem)
    (ra := 0%Z) (ns := 2) (i := hd_in) (K := 1) (E := 0) (B := 6) (T0 := 4 * (ex_r 1 + E0 + 2)) as (fr & ID & P & R).
  - lia.
  - exact S9.
  - lia.
  - lia.
  - exact ex_frames.
  - unfold ex_r. lia.
  - lia.
  - reflexivity.
  - lia.
  - lia.
  - intros t H. change (cap_pix (ex_live_in t) = true) in H. pose proof (ex_live_pix 0 t) as Q. rewrite (CaptureLiveProps.ex_mod (0 + t)) in Q. cbn [Nat.add] in Q.
    cbn [cap_pix ex_live_in] in H. rewrite H in Q. apply Nat.eqb_eq in H. pose proof (Nat.div_mod t 4 ltac:(lia)) as D.
    change (cap_pk (hd_in t)) with (cap_pk (ex_slot_in t)). change (fun t => cap_pix (hd_in t)) with (fun t => cap_pix (ex_live_in t)).
    cbn [cap_pk ex_slot_in]. do 3 f_equal. change (3 mod 4) with 3 in Q. lia.
  - exact ex_live_mem.
  - intros u t UT H. rewrite hd_sys. destruct (Nat.le_gt_cases (t - u) 0) as [L|L]; [exact L|]. exfalso. specialize (H u ltac:(lia) eq_refl). discriminate.
  - change 6 with (4 / 2 ^ 1 + (1 + 0 + 3)). apply clocks_slow_enough; [lia|]. intros a b _. rewrite hd_sys.
    change (fun t => cap_pix (hd_in t)) with (fun t => cap_pix (ex_live_in t)).
    pose proof (ex_live_pix a (b - a)) as QP. pose proof (Nat.mod_upper_bound (a + 3) 4 ltac:(lia)). change (2 ^ 1) with 2. lia.
  - apply Nat.ltb_lt; vm_compute; reflexivity.
  - exact (proj1 ex_live_running).
  - exact (proj2 ex_live_running).
  - apply hd_pix.
  - intros t _. vm_compute. reflexivity.
  - intros t j. apply drv_polite.
  - destruct (drv_begins 4 (2 ^ 1) 32 8 (32 * Z.of_nat (2 ^ 1)) 3 hd_mem 0 (60 * 100) ex_slot_in (60 * 100) ltac:(lia) ltac:(intros; lia) eq_refl) as [A1 A2].
    destruct (ID (S (60 * 100)) 0 A1 ltac:(lia) A2) as (x0 & (X1 & X2 & _) & _).
    assert (SX : forall x, x0 <= x -> 4 * (ex_r 1 + E0 + 2) <= x /\ 6 + 2 * (0 + 1) + 10 <= occurrences (fun t => cap_sys (hd_in t)) (4 * (ex_r 1 + E0 + 2)) (x - 4 * (ex_r 1 + E0 + 2))).
    { intros x L. rewrite hd_sys. unfold ex_r. lia. }
    exists (fr x0). intros f FF.
    destruct (R) with (x0 := x0) (N := f - fr x0) as (x & I1 & I2 & _ & _ & I5).
    + apply quick_relayed. intros t c C L _. exact (drv_quick 4 (2 ^ 1) 32 8 (32 * Z.of_nat (2 ^ 1)) 3 hd_mem 0 (60 * 100) ex_slot_in t c C L).
    + apply SX. lia.
    + exact X2.
    + destruct (P x (SX x I1) I2) as (z & c & _ & SH & _). exists x, z, c. split; [lia|].
      rewrite I5 in SH; [replace (fr x0 + (f - fr x0)) with f in SH by lia; exact SH|].
      intros g _. exists (ex_r g + 476), (4 * (ex_r g + 476 + E0 + 2)). split; [apply hd_last|]. split; [apply hd_pix|].
      intros w W. apply hd_pix_le in W. rewrite hd_sys. unfold ex_r in *. lia.
Qed.
