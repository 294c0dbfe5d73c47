(** C137: from an HDMI source to a filled slot of the receiver's memory. *)
From Coq Require Import ZArith List Bool Lia Arith.
From Verif Require Import Hdl Trace CdcProofs TmdsSpec CharSyncProps ChanSyncModel HdmiProps AnalysisModel HdmiModel HdmiProofs HdmiRxModel HdmiRxProps FrameProofs FrameProps LinkModel LinkProps
  HdmiSrcSpec HdmiSrcProofs HdmiSrcProps InDmaModel InDmaProofs InDmaProps FifoModel FifoProofs FifoProps
  CaptureModel CaptureProofs CaptureProps CaptureRateProofs CaptureLiveProofs CaptureLiveProps.
Import ListNotations.
Open Scope nat_scope.

(** ** The packer with frames of a whole number of words *)

Lemma collect_tags : forall (A : Type) (f : nat -> option (bool * A)) a L,
  (forall n v, a <= n < a + L -> f n = Some v -> fst v = Nat.eqb (length (collect f a (n - a))) 0) ->
  map fst (collect f a L) = map (fun j => Nat.eqb j 0) (seq 0 (length (collect f a L))).
Proof.
  intros A f a L. induction L as [|L IH]; intros H; [reflexivity|]. cbn [collect].
  rewrite map_app, app_length, seq_app, map_app, IH by (intros n v N; apply H; lia). f_equal.
  destruct (f (a + L)) as [v|] eqn:E; [|reflexivity]. cbn [map length seq]. rewrite (H (a + L) v ltac:(lia) E).
  replace (a + L - a) with L by lia. reflexivity.
Qed.

Lemma groups : forall F (ls : list (list Z)) j, (forall l, In l ls -> length l = F) -> j < length ls ->
  nth j ls [] = map (fun q => nth q (concat ls) 0%Z) (seq (F * j) F).
Proof.
  intros F ls. induction ls as [|l ls IH]; intros j H J; cbn [length] in J; [lia|].
  pose proof (H l (or_introl eq_refl)) as L. destruct j as [|j]; cbn [nth concat].
  - rewrite Nat.mul_0_r. apply nth_ext with (d := 0%Z) (d' := 0%Z); [rewrite map_length, seq_length; exact L|].
    intros q Q. rewrite nth_map_seq by lia. cbn [Nat.add]. rewrite app_nth1 by exact Q. reflexivity.
  - rewrite (IH j) by ((intros; apply H; right; assumption) || lia).
    replace (F * S j) with (F + F * j) by lia.
    assert (SQ : seq (F + F * j) F = map (fun q => F + q) (seq (F * j) F)).
    { generalize (F * j) as x. generalize F at 2 4 as y. clear. induction y as [|y IHy]; intros x; [reflexivity|].
      cbn [seq map]. f_equal. rewrite <- (IHy (S x)). f_equal. lia. }
    rewrite SQ, map_map. apply map_ext. intros q. rewrite app_nth2 by lia. f_equal. lia.
Qed.

Lemma total_length : forall F (ls : list (list Z)), (forall l, In l ls -> length l = F) -> length (concat ls) = length ls * F.
Proof.
  intros F ls. induction ls as [|l ls IH]; intros H; [reflexivity|]. cbn [concat length]. rewrite app_length, IH by (intros; apply H; right; assumption).
  rewrite (H l (or_introl eq_refl)). lia.
Qed.

(** A frame of [F * m] pixels after another one: its words, the first one and no other tagged, up to and with the clock after the next
    start. *)
Lemma frame_of_words : forall k, 1 <= k -> let F := 2 ^ k in forall (i : nat -> pk_in) t0 t1 t2 t3 m,
  frame_between i t0 t1 -> frame_between i t1 t2 -> frame_between i t2 t3 ->
  length (collect (pixel_in i) (t0 + 1) (t1 - t0 - 1)) mod F = 0 ->
  length (collect (pixel_in i) (t1 + 1) (t2 - t1 - 1)) = F * m ->
  collect (word_out F i) (t1 + 2) (t2 - t1) =
  map (fun j => (Nat.eqb j 0, rev (map (fun q => nth q (collect (pixel_in i) (t1 + 1) (t2 - t1 - 1)) 0%Z) (seq (F * j) F)))) (seq 0 m).
Proof.
  intros k K F i t0 t1 t2 t3 m F0 F1 F2 L0 L1.
  assert (HF : 2 <= F). { unfold F. destruct k as [|k]; [lia|]. cbn [Nat.pow]. pose proof (Nat.pow_nonzero 2 k ltac:(lia)). lia. }
  pose proof (proj1 F1) as T12.
  destruct (C21_words_are_pixels_partial k K i t1 t2 F1) as (rest & HR & E & HL). fold F in HR, E, HL.
  set (ws := collect (word_out F i) (t1 + 2) (t2 - t1 - 1)) in *. set (px := collect (pixel_in i) (t1 + 1) (t2 - t1 - 1)) in *.
  assert (HL' : forall l, In l (map (fun w : bool * list Z => rev (snd w)) ws) -> length l = F).
  { intros l I. apply in_map_iff in I as (w & <- & W). rewrite rev_length. apply HL, W. }
  pose proof (total_length F _ HL') as TL. rewrite map_length in TL.
  assert (LP : length px = length ws * F + length rest) by (rewrite E, app_length, TL; reflexivity).
  assert (M : length ws = m) by (rewrite L1 in LP; nia).
  assert (R0 : rest = []) by (destruct rest; [reflexivity|cbn [length] in *; nia]).
  rewrite R0, app_nil_r in E. clear R0 HR rest LP.
  assert (LAST : word_out F i (t2 + 1) = None).
  { destruct (word_out F i (t2 + 1)) as [[sof w]|] eqn:W; [|reflexivity]. exfalso.
    destruct (C22_sof_partial k K i t1 t2 t3) with (n := t2 + 1) (sof := sof) (w := w) as [_ X]; try assumption.
    - split; [exact F1|]. fold px. rewrite L1. fold F. rewrite Nat.mul_comm, Nat.mod_mul by lia. lia.
    - pose proof (proj1 F2). lia.
    - lia. }
  replace (t2 - t1) with (S (t2 - t1 - 1)) by lia. cbn [collect]. fold ws. replace (t1 + 2 + (t2 - t1 - 1)) with (t2 + 1) by lia. rewrite LAST, app_nil_r.
  assert (TG : map fst ws = map (fun j => Nat.eqb j 0) (seq 0 (length ws))).
  { apply collect_tags. intros n [sof w] N W. cbn [fst].
    destruct (C22_sof_partial k K i t0 t1 t2) with (n := n) (sof := sof) (w := w) as [X _]; try assumption.
    - split; [exact F0|]. fold F. rewrite L0. lia.
    - lia.
    - fold F in X. rewrite X. replace (n - t1 - 2) with (n - (t1 + 2)) by lia. reflexivity. }
  apply nth_ext with (d := (false, [])) (d' := (false, [])); [rewrite map_length, seq_length; exact M|].
  intros j J. rewrite nth_map_seq by lia. cbn [Nat.add].
  assert (A : fst (nth j ws (false, [])) = Nat.eqb j 0).
  { rewrite <- (map_nth fst), TG. cbn [fst]. rewrite (nth_indep _ false (Nat.eqb 0 0)) by (rewrite map_length, seq_length; exact J).
    rewrite (map_nth (fun j => Nat.eqb j 0)), seq_nth by exact J. reflexivity. }
  assert (B : rev (snd (nth j ws (false, []))) = map (fun q => nth q px 0%Z) (seq (F * j) F)).
  { rewrite E, <- (groups F _ j HL') by (rewrite map_length; exact J).
    rewrite <- (map_nth (fun w : bool * list Z => rev (snd w))). reflexivity. }
  rewrite <- B, rev_involutive, <- A. destruct (nth j ws (false, [])); reflexivity.
Qed.

(** ** Frames of an HDMI source *)

(** The received vsync of clock [n]. *)
Definition seen_vs (Q : nat -> HdmiSrcSpec.slot) (vs : nat -> bool) (n : nat) : bool := vs (last_ctl Q (n + 1)).
(** Frame [f] lies between the rises [r f] and [r (S f)] of the received vsync and has [px] pixels. *)
Definition hdmi_frames (Q : nat -> HdmiSrcSpec.slot) (vs : nat -> bool) (px : nat) (r : nat -> nat) : Prop :=
  forall f, r f < r (S f) /\ vs_rises (seen_vs Q vs) (r f) = true /\ (forall j, r f < j < r (S f) -> vs_rises (seen_vs Q vs) j = false) /\
  occurrences (fun n => is_pix (Q n)) (r f + 1) (r (S f) - r f - 1) = px.
(** The picture that is stored of frame [f]: every pixel of the source replaced by what follows it (see C131_line). *)
Definition picture (Q : nat -> HdmiSrcSpec.slot) (r : nat -> nat) (f : nat) : list Z := collect (stored_slot Q) (r f + 1) (r (S f) - r f - 1).

Lemma ctl_byte_range : forall c, (0 <= c < 4)%Z -> (0 <= ctl_byte c < 256)%Z.
Proof.
  intros c H. assert (c = 0 \/ c = 1 \/ c = 2 \/ c = 3)%Z as [-> | [-> | [-> | ->]]] by lia; vm_compute; split; congruence.
Qed.
Lemma stored_slot_range : forall Q W, hdmi_source Q W -> forall n v, stored_slot Q n = Some v -> (0 <= v < 2 ^ 32)%Z.
Proof.
  intros Q W HQ n v H. unfold stored_slot in H. destruct (is_pix (Q n)) eqn:P; [|discriminate]. injection H as <-.
  pose proof (after_pix Q W HQ n P) as [X|X];
    pose proof (src_words Q W HQ (n + 1) 0 ltac:(lia)) as A0; pose proof (src_words Q W HQ (n + 1) 1 ltac:(lia)) as A1;
    pose proof (src_words Q W HQ (n + 1) 2 ltac:(lia)) as A2;
    destruct (Q (n + 1)); try discriminate; cbn [sends nth colours] in *; unfold rgb, rgb_pixel; change (2 ^ 32)%Z with 4294967296%Z.
  - destruct A0 as [A0 _], A1 as [A1 _], A2 as [A2 _]. lia.
  - destruct A0 as [A0 _], A1 as [A1 _], A2 as [A2 _]. apply ctl_byte_range in A0, A1, A2. lia.
Qed.
Lemma picture_range : forall Q W, hdmi_source Q W -> forall a L q, (0 <= nth q (collect (stored_slot Q) a L) 0 < 2 ^ 32)%Z.
Proof.
  intros Q W HQ a L q. destruct (Nat.le_gt_cases (length (collect (stored_slot Q) a L)) q) as [H|H]; [rewrite nth_overflow by exact H; lia|].
  pose proof (nth_In _ 0%Z H) as I. revert I. generalize (nth q (collect (stored_slot Q) a L) 0%Z). intros v.
  clear H q. induction L as [|L IH]; [intros []|]. cbn [collect]. intros I. apply in_app_or in I as [I|I]; [exact (IH I)|].
  destruct (stored_slot Q (a + L)) as [x|] eqn:E; [|destruct I]. destruct I as [<-|[]]. exact (stored_slot_range Q W HQ _ _ E).
Qed.

(** A whole HDMI frame, data islands and all, in a slot.  [r 0] is the first rise of the received vsync after the lock; a slot loaded
    once the second frame has begun (and older words are gone) is filled and then holds one picture, [2 ^ k] pixels per word with
    the first one in the highest lane; nothing else is written. *)
Theorem C137_hdmi_to_slot : forall Q W, hdmi_source Q W -> forall L raw, wired W L raw ->
  forall s0, rx_ok (rh_rx s0) -> one_deep s0 -> forall a0 b1 b2, lock_sequence Q a0 b1 b2 ->
  exists E0, (forall k, k < 3 -> L k / 10 + 6 < E0 <= L k / 10 + 14) /\
  forall hs vs ph pv, sync_coded Q hs vs ph pv -> quiet_after_line Q hs vs ->
  forall l, b2 + 20 <= l -> line_ends Q l = true ->
  forall k m r, 1 <= k -> 1 <= m -> let F := 2 ^ k in hdmi_frames Q vs (F * m) r -> l < r 0 ->
  forall n aw align mem ra ns (i : nat -> cap_in), let dw := (32 * Z.of_nat F)%Z in
  (1 <= n)%Z -> Z.of_nat (length mem) = (2 ^ n)%Z -> (0 < aw)%Z ->
  let x_in t := rx_pk_in (rh_rx (rh_run s0 raw hdmi_mode t)) in
  (forall t, cap_pix (i t) = true -> cap_pk (i t) = x_in (occurrences (fun u => cap_pix (i u)) 0 t)) ->
  forall K E B,
  runs_bounded (fun t => cap_sys (i t)) (fun t => negb (cap_mready (i t))) K ->
  runs_bounded (fun t => cap_sys (i t))
    (fun t => cap_wbusy (i t) && match c_write n F 32 aw dw align mem ra (dma_init ns) i t with None => true | Some _ => false end) E ->
  slow_enough F x_in (fun t => cap_pix (i t)) (fun t => cap_sys (i t)) K E B ->
  B + E + K + 5 < (K + 1) * (2 ^ Z.to_nat n - 2) ->
  keeps_running (fun t => cap_sys (i t)) -> keeps_running (fun t => cap_pix (i t)) ->
  forall T0, occurrences (fun u => cap_pix (i u)) 0 T0 = r 1 + E0 + 2 ->
  forall w c, T0 <= w -> B + 2 * (E + K) + 10 <= occurrences (fun t => cap_sys (i t)) T0 (w - T0) ->
  loads n F 32 aw dw align mem ra ns i w c ->
  (forall t, w < t -> Z.of_nat m = size_words aw align (cap_size (i t))) ->
  let a := word_address aw align (slot_address n F 32 aw dw align mem ra ns i w c) in
  exists z, w < z /\ slot_status n F 32 aw dw align mem ra ns i z c = 2%Z /\
  forall M, let M' := after M (collect (c_write n F 32 aw dw align mem ra (dma_init ns) i) w (z - w)) in
  exists f, 1 <= f /\ length (picture Q r f) = F * m /\
  (forall q, q < F * m ->
     slice (32 * Z.of_nat (F - 1 - q mod F)) 32 (M' ((a + Z.of_nat (q / F)) mod 2 ^ aw)%Z) = nth q (picture Q r f) 0%Z) /\
  (forall v, (forall j, j < m -> v <> ((a + Z.of_nat j) mod 2 ^ aw)%Z) -> M' v = M v).
Proof.
  intros Q W HQ L raw HW s0 OK OD a0 b1 b2 LK.
  destruct (C131_hdmi_source Q W HQ L raw HW s0 OK OD a0 b1 b2 LK) as (E0 & BE & DL & SY).
  exists E0. split; [exact BE|]. intros hs vs ph pv SC QU l HL LE k m r K1 M1 F HFR HR0 n aw align mem ra ns i dw N HM Haw x_in HX
    K E B H1 H2 H3 HD Hsys Hpix T0 HT w c TW HW' LD SZ a.
  pose proof (SY hs vs ph pv SC QU l HL LE) as DS.
  assert (RM : forall f, r 0 <= r f) by (induction f as [|f IH]; [lia|destruct (HFR f); lia]).
  assert (RV : forall x, l < x -> rises (fun t => pki_vsync (x_in t)) (x + E0) = vs_rises (seen_vs Q vs) x).
  { intros x X. unfold rises, vs_rises, seen_vs. replace (x + E0) with (S (x - 1 + E0)) by lia. rewrite andb_comm.
    change (pki_vsync (x_in (x - 1 + E0))) with (sp_vsync (rh_out s0 raw hdmi_mode (x - 1 + E0))). replace (S (x - 1 + E0)) with (x + E0) by lia.
    change (pki_vsync (x_in (x + E0))) with (sp_vsync (rh_out s0 raw hdmi_mode (x + E0))).
    rewrite (proj2 (DS x ltac:(lia))), (proj2 (DS (x - 1) ltac:(lia))). reflexivity. }
  assert (FB : forall f, frame_between x_in (r f + E0) (r (S f) + E0)).
  { intros f. destruct (HFR f) as (A1 & A2 & A3 & _). pose proof (RM f). split; [lia|]. split; [rewrite RV by lia; exact A2|].
    intros t T. replace t with (t - E0 + E0) by lia. rewrite RV by lia. apply A3. lia. }
  assert (PX : forall f, collect (pixel_in x_in) (r f + E0 + 1) (r (S f) + E0 - (r f + E0) - 1) = picture Q r f).
  { intros f. pose proof (RM f). unfold picture. replace (r (S f) + E0 - (r f + E0) - 1) with (r (S f) - r f - 1) by lia.
    replace (r f + E0 + 1) with (r f + 1 + E0) by lia. rewrite (collect_shift _ (pixel_in x_in) E0 (r f + 1)). apply collect_ext. intros t T.
    destruct (DL t ltac:(lia)) as (V & D & P). unfold stored_slot, pixel_in, x_in, rx_pk_in. cbn [pki_we pki_px].
    unfold rh_out in V, D, P. rewrite V, D. cbn [andb]. destruct (is_pix (Q t)); [|reflexivity]. rewrite <- (P eq_refl). reflexivity. }
  assert (PL : forall f, length (picture Q r f) = F * m).
  { intros f. destruct (HFR f) as (_ & _ & _ & A4). rewrite <- A4. unfold picture. rewrite collect_length. apply occurrences_ext.
    intros t _. unfold stored_slot. destruct (is_pix (Q t)); reflexivity. }
  assert (F0 : F <> 0) by (apply Nat.pow_nonzero; lia).
  set (words := fun f j => rev (map (fun q => nth q (picture Q r (f + 1)) 0%Z) (seq (F * j) F))).
  set (b := fun f => r (f + 1) + E0 + 2).
  assert (HB : forall f, b f <= b (S f) /\ collect (word_out F x_in) (b f) (b (S f) - b f) = map (fun j => (Nat.eqb j 0, words f j)) (seq 0 m)).
  { intros f. unfold b. replace (S f + 1) with (S (f + 1)) by lia. destruct (HFR (f + 1)) as (A1 & _). split; [lia|].
    pose proof (frame_of_words k K1 x_in (r f + E0) (r (S f) + E0) (r (S (S f)) + E0) (r (S (S (S f))) + E0) m (FB f) (FB (S f)) (FB (S (S f)))) as X.
    rewrite !PX, !PL in X. fold F in X. replace (f + 1) with (S f) in * by lia.
    replace (r (S (S f)) + E0 + 2 - (r (S f) + E0 + 2)) with (r (S (S f)) + E0 - (r (S f) + E0)) by lia.
    rewrite X; [|rewrite Nat.mul_comm; apply Nat.mod_mul; exact F0|reflexivity]. unfold words. rewrite Nat.add_1_r. reflexivity. }
  destruct (C95_capture_completes n F 32 aw dw align mem ra ns i N HM Haw K E B x_in HX H1 H2 H3 HD Hsys Hpix b m words M1 HB T0 HT w c TW HW' LD SZ)
    as (z & WZ & SS & MEM).
  exists z. split; [exact WZ|]. split; [exact SS|]. intros M. destruct (MEM M) as (f & A1 & A2).
  exists (f + 1). split; [lia|]. split; [apply PL|]. split; [|exact A2].
  intros q Hq. assert (J : q / F < m) by (apply Nat.div_lt_upper_bound; [exact F0|exact Hq]).
  pose proof (Nat.mod_upper_bound q F F0) as QM. pose proof (Nat.div_mod q F F0) as DM.
  unfold a. rewrite (A1 (q / F) J), joined_lanes.
  set (l0 := words f (q / F)).
  assert (LL : length l0 = F) by (unfold l0, words; rewrite rev_length, map_length, seq_length; reflexivity).
  assert (RG : forall v, In v l0 -> (0 <= v < 2 ^ 32)%Z).
  { intros v V. apply in_rev in V. apply in_map_iff in V as (u & <- & _). apply (picture_range Q W HQ). }
  pose proof (lanes_range 32 l0 ltac:(lia) RG) as LR. rewrite LL in LR. fold dw in LR. rewrite Z.mod_small by exact LR.
  rewrite (lanes_slice 32 l0 ltac:(lia) RG) by lia. unfold l0, words. rewrite rev_nth by (rewrite map_length, seq_length; lia).
  rewrite map_length, seq_length. replace (F - S (F - 1 - q mod F)) with (q mod F) by lia.
  rewrite (nth_indep _ 0%Z (nth 0 (picture Q r (f + 1)) 0%Z)) by (rewrite map_length, seq_length; lia).
  rewrite (map_nth (fun q => nth q (picture Q r (f + 1)) 0%Z)), seq_nth by lia. f_equal. lia.
Qed.
Print Assumptions C137_hdmi_to_slot.

(** ** A case: the source of C131 with data islands, 90 pixels a frame, two of them in a word *)
Lemma ex_src_per : forall f m, ex_src (552 * f + m) = ex_src m.
Proof. intros f m. unfold ex_src. replace (552 * f + m) with (m + f * 552) by lia. rewrite Nat.mod_add by lia. reflexivity. Qed.
Lemma ex_last : forall f m, m < 552 -> last_ctl ex_src (552 * f + m) = 552 * f + last_ctl ex_src m.
Proof.
  intros f. induction m as [|m IH]; intros M.
  - destruct f as [|f]; [reflexivity|]. replace (552 * S f + 0) with (S (551 + 552 * f)) by lia. cbn [last_ctl].
    replace (S (551 + 552 * f)) with (552 * S f + 0) by lia. rewrite ex_src_per. change (is_ctl (ex_src 0)) with true. reflexivity.
  - rewrite Nat.add_succ_r. cbn [last_ctl]. rewrite <- Nat.add_succ_r, ex_src_per. destruct (is_ctl (ex_src (S m))); [reflexivity|]. apply IH. lia.
Qed.
Definition ex_vs_tab (m : nat) : bool := eqb (ex_vs (last_ctl ex_src m)) (ex_vs m).
Lemma ex_vs_tab_ok : forallb ex_vs_tab (seq 0 552) = true.
Proof. vm_compute. reflexivity. Qed.
Lemma ex_vs_per : forall f m, ex_vs (552 * f + m) = ex_vs m.
Proof. intros f m. unfold ex_vs. replace (552 * f + m) with (m + f * 552) by lia. rewrite Nat.mod_add by lia. reflexivity. Qed.
Lemma ex_seen : forall n, seen_vs ex_src ex_vs n = ex_vs (n + 1).
Proof.
  intros n. unfold seen_vs. pose proof (Nat.div_mod (n + 1) 552 ltac:(lia)) as D. pose proof (Nat.mod_upper_bound (n + 1) 552 ltac:(lia)) as U.
  rewrite D, ex_last, !ex_vs_per by exact U. apply eqb_prop. pose proof ex_vs_tab_ok as T. rewrite forallb_forall in T. apply T, in_seq. lia.
Qed.
Definition ex_r (f : nat) : nat := 552 * f + 423.
Definition ex_rise_tab (d : nat) : bool := eqb (negb (ex_vs (423 + d)) && ex_vs (424 + d)) (Nat.eqb d 0).
Lemma ex_rise_tab_ok : forallb ex_rise_tab (seq 0 552) = true.
Proof. vm_compute. reflexivity. Qed.
Lemma ex_rise : forall f d, d < 552 -> vs_rises (seen_vs ex_src ex_vs) (ex_r f + d) = Nat.eqb d 0.
Proof.
  intros f d D. unfold vs_rises. rewrite !ex_seen. unfold ex_r. replace (552 * f + 423 + d - 1 + 1) with (552 * f + (423 + d)) by lia.
  replace (552 * f + 423 + d + 1) with (552 * f + (424 + d)) by lia. rewrite !ex_vs_per. apply eqb_prop.
  pose proof ex_rise_tab_ok as T. rewrite forallb_forall in T. apply T, in_seq. lia.
Qed.
Example ex_frames : hdmi_frames ex_src ex_vs (2 ^ 1 * 45) ex_r.
Proof.
  intros f. split; [unfold ex_r; lia|]. split; [rewrite <- (Nat.add_0_r (ex_r f)); apply ex_rise; lia|]. split.
  - intros j J. replace j with (ex_r f + (j - ex_r f)) by lia. rewrite ex_rise by (unfold ex_r in *; lia). apply Nat.eqb_neq. lia.
  - replace (ex_r (S f) - ex_r f - 1) with 551 by (unfold ex_r; lia). unfold ex_r.
    transitivity (occurrences (fun n => is_pix (ex_src n)) 424 551); [|vm_compute; reflexivity].
    replace (552 * f + 423 + 1) with (552 * f + 424) by lia.
    assert (SH : forall L, occurrences (fun n => is_pix (ex_src n)) (552 * f + 424) L = occurrences (fun n => is_pix (ex_src n)) 424 L); [|apply SH].
    induction L as [|L IH]; [reflexivity|]. cbn [occurrences]. rewrite IH. f_equal.
    replace (552 * f + 424 + L) with (552 * f + (424 + L)) by lia. rewrite ex_src_per. reflexivity.
Qed.

Definition ex_hraw2 (n k : nat) : Z := delayed (ex_W k) (ex_L k) n.
Definition ex_slot_in (t : nat) : cap_in :=
  {| cap_pix := Nat.eqb (t mod 4) 0; cap_sys := true; cap_pk := rx_pk_in (rh_rx (rh_run rh_init ex_hraw2 hdmi_mode (t / 4))); cap_mready := Nat.odd t;
     cap_wbusy := false; cap_size := 360;
     cap_sw := if Nat.eqb t 4 then SwAddr 0 64 else if Nat.eqb t (60 * 100) then SwStatus 0 1 else SwNone; cap_mp := 1; cap_mc := 0 |}%Z.
(** All hypotheses hold: software loads slot 0 at instant 6000, and gets a picture. *)
Example ex_slot_filled : exists z f, 6 * 1000 < z /\
  slot_status 4 2 32 8 64 3 (repeat fe_word0 16) 0 2 ex_slot_in z 0 = 2%Z /\ length (picture ex_src ex_r f) = 90.
Proof.
  destruct ex_source as (S1 & S2 & S3 & S4 & S5 & S6 & S7 & _ & S9).
  destruct (C137_hdmi_to_slot ex_src ex_W S1 ex_L ex_hraw2 S5 rh_init S6 S7 1 40 72 S4) as (E0 & HE & X).
  assert (EB : E0 <= 20). { specialize (HE 0 ltac:(lia)). assert (ex_L 0 / 10 <= 6) by (apply Nat.leb_le; vm_compute; reflexivity). lia. }
  destruct (X ex_hs ex_vs true false S2 S3 210) with (k := 1) (m := 45) (r := ex_r) (n := 4%Z) (aw := 8%Z) (align := 3%Z) (mem := repeat fe_word0 16)
    (ra := 0%Z) (ns := 2) (i := ex_slot_in) (K := 1) (E := 0) (B := 6) (T0 := 4 * (ex_r 1 + E0 + 2)) (w := 60 * 100) (c := 0)
    as (z & Z1 & Z2 & Z3).
  - lia.
  - exact S9.
  - lia.
  - lia.
  - exact ex_frames.
  - unfold ex_r. lia.
  - lia.
  - reflexivity.
  - lia.
  - intros t H. change (cap_pix (ex_live_in t) = true) in H. pose proof (ex_live_pix 0 t) as Q. rewrite (CaptureLiveProps.ex_mod (0 + t)) in Q. cbn [Nat.add] in Q.
    cbn [cap_pix ex_live_in] in H. rewrite H in Q. apply Nat.eqb_eq in H. pose proof (Nat.div_mod t 4 ltac:(lia)) as D.
    cbn [cap_pk ex_slot_in]. do 3 f_equal. change (3 mod 4) with 3 in Q. cbn [cap_pix ex_live_in ex_slot_in] in Q |- *. lia.
  - exact ex_live_mem.
  - intros u t UT H. change (occurrences (fun t => cap_sys (ex_live_in t)) u (t - u) <= 0). rewrite ex_live_sys.
    destruct (Nat.le_gt_cases (t - u) 0) as [L|L]; [exact L|]. exfalso. specialize (H u ltac:(lia) eq_refl). discriminate.
  - change 6 with (4 / 2 ^ 1 + (1 + 0 + 3)). apply clocks_slow_enough; [lia|]. intros a b _.
    pose proof (ex_live_sys a (b - a)) as QS. pose proof (ex_live_pix a (b - a)) as QP.
    cbn [cap_sys cap_pix ex_live_in ex_slot_in] in QS, QP |- *. rewrite QS. pose proof (Nat.mod_upper_bound (a + 3) 4 ltac:(lia)).
    change (2 ^ 1) with 2. lia.
  - apply Nat.ltb_lt; vm_compute; reflexivity.
  - exact (proj1 ex_live_running).
  - exact (proj2 ex_live_running).
  - pose proof (ex_live_pix 0 (4 * (ex_r 1 + E0 + 2))) as QP. change (3 mod 4) with 3 in QP. cbn [Nat.add] in QP. change ((0 + 3) mod 4) with 3 in QP.
    replace (4 * (ex_r 1 + E0 + 2) + 3) with (3 + (ex_r 1 + E0 + 2) * 4) in QP at 1 by lia. rewrite Nat.mod_add in QP by lia. change (3 mod 4) with 3 in QP.
    cbn [cap_pix ex_live_in ex_slot_in] in QP |- *. lia.
  - unfold ex_r. lia.
  - pose proof (ex_live_sys (4 * (ex_r 1 + E0 + 2)) (60 * 100 - 4 * (ex_r 1 + E0 + 2))) as QS. cbn [cap_sys ex_live_in ex_slot_in] in QS |- *. rewrite QS.
    unfold ex_r. lia.
  - destruct (idle_at_first 4%Z (2 ^ 1) 32%Z 8%Z (32 * Z.of_nat (2 ^ 1))%Z 3%Z (repeat fe_word0 16) 0%Z 2 ex_slot_in (60 * 100)) as [A B].
    { intros t j v T. cbn [cap_sw ex_slot_in]. destruct (Nat.eqb t 4); [discriminate|]. destruct (Nat.eqb_spec t (60 * 100)); [lia|discriminate]. }
    constructor; try assumption.
    + lia.
    + reflexivity.
    + intros t T. cbn [cap_sw ex_slot_in]. destruct (Nat.eqb_spec t 4); [lia|]. destruct (Nat.eqb_spec t (60 * 100)); [lia|reflexivity].
    + intros j _. left. apply B.
  - intros t _. vm_compute. reflexivity.
  - destruct (Z3 (fun _ => 0%Z)) as (f & _ & PL & _). exists z, f. split; [lia|]. split; [exact Z2|exact PL].
Qed.
