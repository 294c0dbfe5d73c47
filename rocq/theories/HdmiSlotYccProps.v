(** C138: from an HDMI source to a filled slot of the receiver's memory in ycbcr422 mode, the default of HDMIIn. *)
From Coq Require Import ZArith List Bool Lia Arith.
From Verif Require Import Hdl Trace CdcProofs TmdsSpec CharSyncProps ChanSyncModel HdmiProps AnalysisModel HdmiModel HdmiProofs HdmiRxModel HdmiRxProps FrameProofs FrameProps LinkModel LinkProps
  HdmiSrcSpec HdmiSrcProofs HdmiSrcProps InDmaModel InDmaProofs InDmaProps FifoModel FifoProofs FifoProps
  CaptureModel CaptureProofs CaptureProps CaptureRateProofs CaptureLiveProofs CaptureLiveProps
  CscModel CscSpec ChromaProofs YccPathModel YccPathProps YccLinkModel YccLinkProps HdmiSlotProps.
Import ListNotations.
Open Scope nat_scope.

(** ** Specification: the pixels of an HDMI source as stored in 4:2:2 *)

(** Position of clock [n] in its line: the number of pixels just before it. *)
Fixpoint line_pos (Q : nat -> HdmiSrcSpec.slot) (n : nat) : nat :=
  match n with
  | O => O
  | S m => if is_pix (Q m) then S (line_pos Q m) else O
  end.
(** The colour that goes with the data enable of pixel [n] (see C131): that of what follows, converted. *)
Definition seen_ycc (Q : nat -> HdmiSrcSpec.slot) (n : nat) : ycc :=
  let '(r, g, b) := colours (Q (n + 1)) in spec_ycc 8 {| c_r := r; c_g := g; c_b := b |}.
(** Luma of its own; above it, for the first of a pair of pixels of the line the mean of the two blue differences, for the
    second that of the red ones. *)
Definition stored_slot_422 (Q : nat -> HdmiSrcSpec.slot) (n : nat) : option Z :=
  if is_pix (Q n) then
    let first := Nat.even (line_pos Q n) in
    let a := seen_ycc Q (if first then n else n - 1) in
    let b := seen_ycc Q (if first then n + 1 else n) in
    Some (c_y (seen_ycc Q n) + 256 * (if first then (c_cb a + c_cb b) / 2 else (c_cr a + c_cr b) / 2))%Z
  else None.
(** Lines that begin after [n0] have an even number of pixels and are followed by nine clocks without. *)
Definition paired_lines (Q : nat -> HdmiSrcSpec.slot) (n0 : nat) : Prop :=
  forall p, n0 < p -> is_pix (Q (p - 1)) = false -> is_pix (Q p) = true ->
  exists h, line_at Q p h /\ Nat.even h = true /\ forall j, p + h <= j < p + h + 9 -> is_pix (Q j) = false.
Definition picture_422 (Q : nat -> HdmiSrcSpec.slot) (r : nat -> nat) (f : nat) : list Z :=
  collect (stored_slot_422 Q) (r f + 1) (r (S f) - r f - 1).
(** No pixel in the eleven clocks up to the rise of vsync or in that of the rise. *)
Definition quiet_before (Q : nat -> HdmiSrcSpec.slot) (r : nat -> nat) : Prop :=
  forall f j, r f <= j + 11 -> j <= r f -> is_pix (Q j) = false.

(** The packer's input in this mode, input/__init__.py:140-151. *)
Definition hdmi_ycc_stream (F : nat) (s0 : rh_st) (raw : nat -> nat -> Z) (t : nat) : pk_in :=
  let i n := rx_fe_in (rh_rx (rh_run s0 raw hdmi_mode n)) in fe_pk_in (fe_run F i t) (i t).

(** ** Proofs *)

Lemma line_pos_le : forall Q n, line_pos Q n <= n.
Proof. intros Q. induction n as [|n IH]; cbn [line_pos]; [lia|]. destruct (is_pix (Q n)); lia. Qed.
Lemma line_pos_pix : forall Q n j, n - line_pos Q n <= j < n -> is_pix (Q j) = true.
Proof.
  intros Q. induction n as [|n IH]; cbn [line_pos]; intros j J; [lia|]. destruct (is_pix (Q n)) eqn:E; [|lia].
  destruct (Nat.eq_dec j n) as [->|N]; [exact E|]. apply IH. lia.
Qed.
Lemma line_pos_start : forall Q n, 0 < n - line_pos Q n -> is_pix (Q (n - line_pos Q n - 1)) = false.
Proof.
  intros Q. induction n as [|n IH]; cbn [line_pos]; intros H; [lia|]. destruct (is_pix (Q n)) eqn:E.
  - replace (S n - S (line_pos Q n)) with (n - line_pos Q n) by lia. apply IH. lia.
  - replace (S n - 0 - 1) with n by lia. exact E.
Qed.

Lemma colours_ok : forall Q W, hdmi_source Q W -> forall n, is_pix (Q n) = true -> forall r g b, colours (Q (n + 1)) = (r, g, b) ->
  rgb_ok 8 {| c_r := r; c_g := g; c_b := b |}.
Proof.
  intros Q W HQ n P r g b H.
  pose proof (after_pix Q W HQ n P) as [X|X];
    pose proof (src_words Q W HQ (n + 1) 0 ltac:(lia)) as A0; pose proof (src_words Q W HQ (n + 1) 1 ltac:(lia)) as A1;
    pose proof (src_words Q W HQ (n + 1) 2 ltac:(lia)) as A2;
    destruct (Q (n + 1)); try discriminate; cbn [sends nth colours] in *; injection H as <- <- <-; unfold rgb_ok; cbn [c_r c_g c_b];
    change (2 ^ 8)%Z with 256%Z.
  - destruct A0 as [A0 _], A1 as [A1 _], A2 as [A2 _]. lia.
  - destruct A0 as [A0 _], A1 as [A1 _], A2 as [A2 _]. apply ctl_byte_range in A0, A1, A2. lia.
Qed.

Lemma stored_slot_422_range : forall Q n v, stored_slot_422 Q n = Some v -> (0 <= v < 2 ^ 16)%Z.
Proof.
  intros Q n v H. unfold stored_slot_422 in H. destruct (is_pix (Q n)); [|discriminate].
  cbv zeta in H. match type of H with Some ?x = _ => assert (EV : v = x) by congruence end. clear H. subst v.
  assert (R : forall k, (0 <= c_y (seen_ycc Q k) < 256 /\ 0 <= c_cb (seen_ycc Q k) < 256 /\ 0 <= c_cr (seen_ycc Q k) < 256)%Z).
  { intros k. unfold seen_ycc. destruct (colours (Q (k + 1))) as [[r g] b]. unfold spec_ycc. cbn [c_y c_cb c_cr]. pose proof clamp_byte. auto. }
  assert (M : forall a b, (0 <= a < 256 -> 0 <= b < 256 -> 0 <= (a + b) / 2 < 256)%Z).
  { intros a b A B. split; [apply Z.div_pos; lia|apply Z.div_lt_upper_bound; lia]. }
  change (2 ^ 16)%Z with 65536%Z. pose proof (proj1 (R n)) as Y.
  destruct (Nat.even (line_pos Q n)); cbv beta iota zeta.
  - pose proof (M _ _ (proj1 (proj2 (R n))) (proj1 (proj2 (R (n + 1))))). lia.
  - pose proof (M _ _ (proj2 (proj2 (R (n - 1)))) (proj2 (proj2 (R n)))). lia.
Qed.
Lemma collect_all : forall (A : Type) (P : A -> Prop) (f : nat -> option A) a L, (forall n v, f n = Some v -> P v) -> forall v, In v (collect f a L) -> P v.
Proof.
  intros A P f a L H. induction L as [|L IH]; cbn [collect]; intros v I; [destruct I|]. apply in_app_or in I as [I|I]; [exact (IH v I)|].
  destruct (f (a + L)) as [x|] eqn:E; [|destruct I]. destruct I as [<-|[]]. exact (H _ _ E).
Qed.

Section Ycc.
Variables (Q : nat -> HdmiSrcSpec.slot) (W : nat -> nat -> Z).
Hypothesis HQ : hdmi_source Q W.
Variables (s0 : rh_st) (raw : nat -> nat -> Z) (E0 l F : nat).
Hypothesis DL : delivers Q (rh_out s0 raw hdmi_mode) E0 l.
Hypothesis NP : is_pix (Q l) = false.
Hypothesis PL : paired_lines Q l.
Let i n := rx_fe_in (rh_rx (rh_run s0 raw hdmi_mode n)).

Lemma fe_at : forall n, l <= n -> fi_valid (i (n + E0)) = true /\ fi_de (i (n + E0)) = is_pix (Q n) /\
  (is_pix (Q n) = true -> rgb_ok 8 (fi_px (i (n + E0))) /\ ycc_at i (n + E0) = seen_ycc Q n).
Proof.
  intros n N. destruct (DL n N) as (V & D & P). split; [exact V|]. split; [exact D|]. intros X. specialize (P X).
  unfold ycc_at, seen_ycc. unfold i, rx_fe_in. cbn [fi_px]. unfold rh_out in P. rewrite <- P. split; [|reflexivity].
  apply (colours_ok Q W HQ n X). symmetry. exact P.
Qed.

Lemma hdmi_ycc_px : forall n, l < n -> pixel_in (hdmi_ycc_stream F s0 raw) (n + (E0 + 11)) = stored_slot_422 Q n.
Proof.
  intros n N. change (pixel_in (hdmi_ycc_stream F s0 raw) (n + (E0 + 11))) with (fe_pixel (fe_run F i (n + (E0 + 11))) (i (n + (E0 + 11)))).
  unfold stored_slot_422. destruct (is_pix (Q n)) eqn:P.
  - pose proof (line_pos_le Q n) as LE. set (x := line_pos Q n) in *.
    assert (B : l < n - x).
    { destruct (Nat.lt_ge_cases l (n - x)) as [H|H]; [exact H|]. exfalso. pose proof (line_pos_pix Q n l) as X. fold x in X. rewrite X in NP by lia. discriminate. }
    pose proof (line_pos_start Q n) as ST. fold x in ST. specialize (ST ltac:(lia)).
    assert (P0 : is_pix (Q (n - x)) = true).
    { destruct (Nat.eq_dec x 0) as [Z|Z]; [rewrite Z, Nat.sub_0_r; exact P|]. apply (line_pos_pix Q n). fold x. lia. }
    destruct (PL (n - x) B ST P0) as (h & LA & EV & GAP). pose proof LA as (_ & H1 & _ & HP & HE).
    assert (XH : x < h).
    { destruct (Nat.lt_ge_cases x h) as [H|H]; [exact H|]. exfalso. destruct (Nat.eq_dec x h) as [Z|Z].
      - rewrite <- Z in HE. replace (n - x + x) with n in HE by lia. congruence.
      - pose proof (line_pos_pix Q n (n - x + h)) as X. fold x in X. rewrite X in HE by lia. discriminate. }
    assert (IL : in_line i (n - x + E0) h).
    { split; [|split].
      - intros m M. replace m with (n - x - 1 + E0) by lia. rewrite (proj1 (proj2 (fe_at (n - x - 1) ltac:(lia)))). exact ST.
      - intros j J. replace j with (n - x + (j - (n - x + E0)) + E0) by lia.
        destruct (fe_at (n - x + (j - (n - x + E0))) ltac:(lia)) as (V & D & R). pose proof (HP (j - (n - x + E0)) ltac:(lia)) as X.
        split; [rewrite D; exact X|]. split; [exact V|]. exact (proj1 (R X)).
      - intros j J. replace j with (j - E0 + E0) by lia. rewrite (proj1 (proj2 (fe_at (j - E0) ltac:(lia)))). apply GAP. lia. }
    replace (n + (E0 + 11)) with (n - x + E0 + x + 11) by lia. rewrite (C65_captured_pixels F i _ h EV IL x XH). f_equal.
    assert (SEE : forall j, j < h -> ycc_at i (n - x + E0 + j) = seen_ycc Q (n - x + j)).
    { intros j J. replace (n - x + E0 + j) with (n - x + j + E0) by lia. apply (fe_at (n - x + j) ltac:(lia)). apply HP, J. }
    unfold line_422. cbv zeta. rewrite SEE by exact XH. replace (n - x + x) with n by lia.
    pose proof (odd_half x) as OX. pose proof (odd_half h) as OH. rewrite <- Nat.negb_even in OX, OH. rewrite EV in OH. cbn [negb] in OH.
    destruct (Nat.even x) eqn:EX; cbn [negb] in OX.
    + replace (n - x + E0 + 2 * (x / 2) + 1) with (n - x + E0 + (2 * (x / 2) + 1)) by lia. rewrite !SEE by lia. replace (n - x + 2 * (x / 2)) with n by lia. replace (n - x + (2 * (x / 2) + 1)) with (n + 1) by lia. reflexivity.
    + replace (n - x + E0 + 2 * (x / 2) + 1) with (n - x + E0 + (2 * (x / 2) + 1)) by lia. rewrite !SEE by lia. replace (n - x + 2 * (x / 2)) with (n - 1) by lia. replace (n - x + (2 * (x / 2) + 1)) with n by lia. reflexivity.
  - destruct (fe_pixel (fe_run F i (n + (E0 + 11))) (i (n + (E0 + 11)))) eqn:X; [|reflexivity]. exfalso.
    destruct (proj1 (C65_nothing_else F i (n + (E0 + 11))) ltac:(rewrite X; discriminate)) as (m & EM & _ & A).
    replace m with (n + E0) in A by lia. rewrite (proj1 (proj2 (fe_at n ltac:(lia)))) in A. congruence.
Qed.
End Ycc.

(** Frames of whole words at the packer's input end up in a slot, for pixels of any width. *)
Lemma frames_to_slot : forall pw, (0 < pw)%Z -> forall k m x_in (R : nat -> nat) (pic : nat -> list Z), 1 <= k -> 1 <= m -> let F := 2 ^ k in
  (forall f, frame_between x_in (R f) (R (S f))) ->
  (forall f, collect (pixel_in x_in) (R f + 1) (R (S f) - R f - 1) = pic f) -> (forall f, length (pic f) = F * m) ->
  (forall f v, In v (pic f) -> (0 <= v < 2 ^ pw)%Z) ->
  forall n aw align mem ra ns (i : nat -> cap_in), let dw := (pw * Z.of_nat F)%Z in
  (1 <= n)%Z -> Z.of_nat (length mem) = (2 ^ n)%Z -> (0 < aw)%Z ->
  (forall t, cap_pix (i t) = true -> cap_pk (i t) = x_in (occurrences (fun u => cap_pix (i u)) 0 t)) ->
  forall K E B,
  runs_bounded (fun t => cap_sys (i t)) (fun t => negb (cap_mready (i t))) K ->
  runs_bounded (fun t => cap_sys (i t))
    (fun t => cap_wbusy (i t) && match c_write n F pw aw dw align mem ra (dma_init ns) i t with None => true | Some _ => false end) E ->
  slow_enough F x_in (fun t => cap_pix (i t)) (fun t => cap_sys (i t)) K E B ->
  B + E + K + 5 < (K + 1) * (2 ^ Z.to_nat n - 2) ->
  keeps_running (fun t => cap_sys (i t)) -> keeps_running (fun t => cap_pix (i t)) ->
  forall T0, occurrences (fun u => cap_pix (i u)) 0 T0 = R 1 + 2 ->
  forall w c, T0 <= w -> B + 2 * (E + K) + 10 <= occurrences (fun t => cap_sys (i t)) T0 (w - T0) ->
  loads n F pw aw dw align mem ra ns i w c ->
  (forall t, w < t -> Z.of_nat m = size_words aw align (cap_size (i t))) ->
  let a := word_address aw align (slot_address n F pw aw dw align mem ra ns i w c) in
  exists z, w < z /\ slot_status n F pw aw dw align mem ra ns i z c = 2%Z /\
  forall M, let M' := after M (collect (c_write n F pw aw dw align mem ra (dma_init ns) i) w (z - w)) in
  exists f, 1 <= f /\
  (forall q, q < F * m ->
     slice (pw * Z.of_nat (F - 1 - q mod F)) pw (M' ((a + Z.of_nat (q / F)) mod 2 ^ aw)%Z) = nth q (pic f) 0%Z) /\
  (forall v, (forall j, j < m -> v <> ((a + Z.of_nat j) mod 2 ^ aw)%Z) -> M' v = M v).
Proof.
  intros pw PW k m x_in R pic K1 M1 F FB PX PLn RG n aw align mem ra ns i dw N HM Haw HX K E B H1 H2 H3 HD Hsys Hpix T0 HT w c TW HW' LD SZ a.
  assert (F0 : F <> 0) by (apply Nat.pow_nonzero; lia).
  assert (RG' : forall f q, (0 <= nth q (pic f) 0 < 2 ^ pw)%Z).
  { intros f q. destruct (nth_in_or_default q (pic f) 0%Z) as [I| ->]; [exact (RG f _ I)|]. split; [lia|]. apply Z.pow_pos_nonneg; lia. }
  set (words := fun f j => rev (map (fun q => nth q (pic (f + 1)) 0%Z) (seq (F * j) F))).
  set (b := fun f => R (f + 1) + 2).
  assert (HB : forall f, b f <= b (S f) /\ collect (word_out F x_in) (b f) (b (S f) - b f) = map (fun j => (Nat.eqb j 0, words f j)) (seq 0 m)).
  { intros f. unfold b. replace (S f + 1) with (S (f + 1)) by lia. destruct (FB (f + 1)) as (A1 & _). split; [lia|].
    pose proof (frame_of_words k K1 x_in (R f) (R (S f)) (R (S (S f))) (R (S (S (S f)))) m (FB f) (FB (S f)) (FB (S (S f)))) as X.
    rewrite !PX, !PLn in X. fold F in X. replace (f + 1) with (S f) in * by lia.
    replace (R (S (S f)) + 2 - (R (S f) + 2)) with (R (S (S f)) - R (S f)) by lia.
    rewrite X; [|rewrite Nat.mul_comm; apply Nat.mod_mul; exact F0|reflexivity]. unfold words. rewrite Nat.add_1_r. reflexivity. }
  destruct (C95_capture_completes n F pw aw dw align mem ra ns i N HM Haw K E B x_in HX H1 H2 H3 HD Hsys Hpix b m words M1 HB T0 HT w c TW HW' LD SZ)
    as (z & WZ & SS & MEM).
  exists z. split; [exact WZ|]. split; [exact SS|]. intros M. destruct (MEM M) as (f & A1 & A2).
  exists (f + 1). split; [lia|]. split; [|exact A2].
  intros q Hq. assert (J : q / F < m) by (apply Nat.div_lt_upper_bound; [exact F0|exact Hq]).
  pose proof (Nat.mod_upper_bound q F F0) as QM. pose proof (Nat.div_mod q F F0) as DM.
  unfold a. rewrite (A1 (q / F) J), joined_lanes.
  set (l0 := words f (q / F)).
  assert (LL : length l0 = F) by (unfold l0, words; rewrite rev_length, map_length, seq_length; reflexivity).
  assert (RL : forall v, In v l0 -> (0 <= v < 2 ^ pw)%Z).
  { intros v V. apply in_rev in V. apply in_map_iff in V as (u & <- & _). apply RG'. }
  pose proof (lanes_range pw l0 ltac:(lia) RL) as LR. rewrite LL in LR. fold dw in LR. rewrite Z.mod_small by exact LR.
  rewrite (lanes_slice pw l0 ltac:(lia) RL) by lia. unfold l0, words. rewrite rev_nth by (rewrite map_length, seq_length; lia).
  rewrite map_length, seq_length. replace (F - S (F - 1 - q mod F)) with (q mod F) by lia.
  rewrite (nth_indep _ 0%Z (nth 0 (pic (f + 1)) 0%Z)) by (rewrite map_length, seq_length; lia).
  rewrite (map_nth (fun q => nth q (pic (f + 1)) 0%Z)), seq_nth by lia. f_equal. lia.
Qed.

Lemma collect_nil : forall (A : Type) (f : nat -> option A) s n, (forall t, s <= t < s + n -> f t = None) -> collect f s n = [].
Proof. intros A f s n. induction n as [|n IH]; intros H; [reflexivity|]. cbn [collect]. rewrite IH by (intros t T; apply H; lia). rewrite H by lia. reflexivity. Qed.
(** Counting from another origin when the margins hold nothing. *)
Lemma collect_moved : forall (A : Type) (g : nat -> option A) d a L, d <= a ->
  (forall j, a - d <= j < a -> g j = None) -> (forall j, a + L - d <= j < a + L -> g j = None) -> d <= L ->
  collect g (a - d) L = collect g a L.
Proof.
  intros A g d a L DA H1 H2 DL. replace L with (d + (L - d)) at 1 by lia. rewrite collect_app.
  rewrite (collect_nil _ g (a - d) d) by (intros j J; apply H1; lia). cbn [app]. replace (a - d + d) with a by lia.
  replace L with (L - d + d) at 2 by lia. rewrite collect_app, (collect_nil _ g (a + (L - d)) d) by (intros j J; apply H2; lia).
  rewrite app_nil_r. reflexivity.
Qed.

(** C137 in ycbcr422 mode: words of [2 ^ k] pixels of 16 bits.  The frame extraction delays the pixels, but not vsync, by eleven
    clocks, and needs lines of pairs. *)
Theorem C138_hdmi_to_slot_422 : forall Q W, hdmi_source Q W -> forall L raw, wired W L raw ->
  forall s0, rx_ok (rh_rx s0) -> one_deep s0 -> forall a0 b1 b2, lock_sequence Q a0 b1 b2 ->
  exists E0, (forall k, k < 3 -> L k / 10 + 6 < E0 <= L k / 10 + 14) /\
  forall hs vs ph pv, sync_coded Q hs vs ph pv -> quiet_after_line Q hs vs ->
  forall l, b2 + 20 <= l -> line_ends Q l = true -> paired_lines Q l ->
  forall k m r, 1 <= k -> 1 <= m -> let F := 2 ^ k in hdmi_frames Q vs (F * m) r -> quiet_before Q r -> l + 11 <= r 0 ->
  forall n aw align mem ra ns (i : nat -> cap_in), let dw := (16 * Z.of_nat F)%Z in
  (1 <= n)%Z -> Z.of_nat (length mem) = (2 ^ n)%Z -> (0 < aw)%Z ->
  let x_in := hdmi_ycc_stream F s0 raw in
  (forall t, cap_pix (i t) = true -> cap_pk (i t) = x_in (occurrences (fun u => cap_pix (i u)) 0 t)) ->
  forall K E B,
  runs_bounded (fun t => cap_sys (i t)) (fun t => negb (cap_mready (i t))) K ->
  runs_bounded (fun t => cap_sys (i t))
    (fun t => cap_wbusy (i t) && match c_write n F 16 aw dw align mem ra (dma_init ns) i t with None => true | Some _ => false end) E ->
  slow_enough F x_in (fun t => cap_pix (i t)) (fun t => cap_sys (i t)) K E B ->
  B + E + K + 5 < (K + 1) * (2 ^ Z.to_nat n - 2) ->
  keeps_running (fun t => cap_sys (i t)) -> keeps_running (fun t => cap_pix (i t)) ->
  forall T0, occurrences (fun u => cap_pix (i u)) 0 T0 = r 1 + E0 + 2 ->
  forall w c, T0 <= w -> B + 2 * (E + K) + 10 <= occurrences (fun t => cap_sys (i t)) T0 (w - T0) ->
  loads n F 16 aw dw align mem ra ns i w c ->
  (forall t, w < t -> Z.of_nat m = size_words aw align (cap_size (i t))) ->
  let a := word_address aw align (slot_address n F 16 aw dw align mem ra ns i w c) in
  exists z, w < z /\ slot_status n F 16 aw dw align mem ra ns i z c = 2%Z /\
  forall M, let M' := after M (collect (c_write n F 16 aw dw align mem ra (dma_init ns) i) w (z - w)) in
  exists f, 1 <= f /\ length (picture_422 Q r f) = F * m /\
  (forall q, q < F * m ->
     slice (16 * Z.of_nat (F - 1 - q mod F)) 16 (M' ((a + Z.of_nat (q / F)) mod 2 ^ aw)%Z) = nth q (picture_422 Q r f) 0%Z) /\
  (forall v, (forall j, j < m -> v <> ((a + Z.of_nat j) mod 2 ^ aw)%Z) -> M' v = M v).
Proof.
  intros Q W HQ L raw HW s0 OK OD a0 b1 b2 LK.
  destruct (C131_hdmi_source Q W HQ L raw HW s0 OK OD a0 b1 b2 LK) as (E0 & BE & DL & SY).
  exists E0. split; [exact BE|]. intros hs vs ph pv SC QU l HL LE PL k m r K1 M1 F HFR QB HR0 n aw align mem ra ns i dw N HM Haw x_in HX
    K E B H1 H2 H3 HD Hsys Hpix T0 HT w c TW HW' LD SZ a.
  pose proof (SY hs vs ph pv SC QU l HL LE) as DS.
  assert (DL' : delivers Q (rh_out s0 raw hdmi_mode) E0 l) by (intros t T; apply DL; lia).
  assert (NP : is_pix (Q l) = false). { unfold line_ends in LE. apply andb_true_iff in LE as [_ X]. apply negb_true_iff, X. }
  assert (RM : forall f, r 0 <= r f) by (induction f as [|f IH]; [lia|destruct (HFR f); lia]).
  assert (RV : forall x, l < x -> rises (fun t => pki_vsync (x_in t)) (x + E0) = vs_rises (seen_vs Q vs) x).
  { intros x X. unfold rises, vs_rises, seen_vs. replace (x + E0) with (S (x - 1 + E0)) by lia. rewrite andb_comm.
    change (pki_vsync (x_in (x - 1 + E0))) with (sp_vsync (rh_out s0 raw hdmi_mode (x - 1 + E0))). replace (S (x - 1 + E0)) with (x + E0) by lia.
    change (pki_vsync (x_in (x + E0))) with (sp_vsync (rh_out s0 raw hdmi_mode (x + E0))).
    rewrite (proj2 (DS x ltac:(lia))), (proj2 (DS (x - 1) ltac:(lia))). reflexivity. }
  assert (FB : forall f, frame_between x_in (r f + E0) (r (S f) + E0)).
  { intros f. destruct (HFR f) as (A1 & A2 & A3 & _). pose proof (RM f). split; [lia|]. split; [rewrite RV by lia; exact A2|].
    intros t T. replace t with (t - E0 + E0) by lia. rewrite RV by lia. apply A3. lia. }
  assert (SN : forall j, is_pix (Q j) = false -> stored_slot_422 Q j = None) by (intros j J; unfold stored_slot_422; rewrite J; reflexivity).
  assert (PLn : forall f, length (picture_422 Q r f) = F * m).
  { intros f. destruct (HFR f) as (_ & _ & _ & A4). rewrite <- A4. unfold picture_422. rewrite collect_length. apply occurrences_ext.
    intros t _. unfold stored_slot_422. destruct (is_pix (Q t)); reflexivity. }
  assert (F0 : F <> 0) by (apply Nat.pow_nonzero; lia).
  assert (GP : forall f, 11 <= r (S f) - r f - 1).
  { intros f. destruct (Nat.le_gt_cases 11 (r (S f) - r f - 1)) as [H|H]; [exact H|]. exfalso.
    pose proof (PLn f) as X. unfold picture_422 in X. rewrite (collect_nil _ (stored_slot_422 Q)) in X; [cbn [length] in X; nia|].
    intros j J. apply SN, (QB (S f)); destruct (HFR f); lia. }
  assert (PX : forall f, collect (pixel_in x_in) (r f + E0 + 1) (r (S f) + E0 - (r f + E0) - 1) = picture_422 Q r f).
  { intros f. pose proof (RM f). pose proof (GP f). destruct (HFR f) as (A1 & _). unfold picture_422.
    rewrite <- (collect_moved _ (stored_slot_422 Q) 11 (r f + 1)); try lia.
    - replace (r (S f) + E0 - (r f + E0) - 1) with (r (S f) - r f - 1) by lia.
      replace (r f + E0 + 1) with (r f + 1 - 11 + (E0 + 11)) by lia. rewrite (collect_shift _ (pixel_in x_in) (E0 + 11) (r f + 1 - 11)).
      apply collect_ext. intros t T. destruct (Nat.eq_dec t l) as [-> | NE].
      + exfalso. lia.
      + apply (hdmi_ycc_px Q W HQ s0 raw E0 l F DL' NP PL). lia.
    - intros j J. apply SN, (QB f); lia.
    - intros j J. apply SN, (QB (S f)); lia. }
  destruct (frames_to_slot 16 ltac:(lia) k m x_in (fun f => r f + E0) (picture_422 Q r) K1 M1 FB PX PLn
    (fun f v I => collect_all Z (fun v => (0 <= v < 2 ^ 16)%Z) _ _ _ (stored_slot_422_range Q) v I)
    n aw align mem ra ns i N HM Haw HX K E B H1 H2 H3 HD Hsys Hpix T0 HT w c TW HW' LD SZ) as (z & A1 & A2 & A3).
  exists z. split; [exact A1|]. split; [exact A2|]. intros M. destruct (A3 M) as (f & B1 & B2 & B3).
  exists f. split; [exact B1|]. split; [apply PLn|]. split; [exact B2|exact B3].
Qed.
Print Assumptions C138_hdmi_to_slot_422.

(** ** A case: the source of C137, three lines of 30 pixels a frame *)
Definition ex_line_tab (m : nat) : bool :=
  negb (negb (is_pix (ex_src m)) && is_pix (ex_src (m + 1))) ||
  forallb (fun j => is_pix (ex_src (m + 1 + j))) (seq 0 30) && forallb (fun j => negb (is_pix (ex_src (m + 1 + 30 + j)))) (seq 0 9).
Lemma ex_line_tab_ok : forallb ex_line_tab (seq 0 552) = true.
Proof. vm_compute. reflexivity. Qed.
Lemma ex_src_shift : forall n j, ex_src (n + j) = ex_src (n mod 552 + j).
Proof. intros n j. rewrite (Nat.div_mod n 552) at 1 by lia. rewrite <- Nat.add_assoc. apply ex_src_per. Qed.
Example ex_paired : forall n0, paired_lines ex_src n0.
Proof.
  intros n0 p P0 P1 P2. exists 30. pose proof ex_line_tab_ok as T. rewrite forallb_forall in T.
  specialize (T ((p - 1) mod 552)). assert (I : In ((p - 1) mod 552) (seq 0 552)) by (apply in_seq; pose proof (Nat.mod_upper_bound (p - 1) 552); lia).
  specialize (T I). unfold ex_line_tab in T. rewrite <- (Nat.add_0_r (p - 1)), ex_src_shift, Nat.add_0_r in P1. rewrite P1 in T.
  replace p with (p - 1 + 1) in P2 by lia. rewrite ex_src_shift in P2. rewrite P2 in T. cbn [negb andb orb] in T.
  apply andb_true_iff in T as [A B]. rewrite forallb_forall in A, B.
  assert (A' : forall j, j < 30 -> is_pix (ex_src (p + j)) = true).
  { intros j J. replace (p + j) with (p - 1 + (1 + j)) by lia. rewrite ex_src_shift, Nat.add_assoc. apply A, in_seq. lia. }
  assert (B' : forall j, j < 9 -> is_pix (ex_src (p + 30 + j)) = false).
  { intros j J. replace (p + 30 + j) with (p - 1 + (1 + 30 + j)) by lia. rewrite ex_src_shift, !Nat.add_assoc. apply negb_true_iff, B, in_seq. lia. }
  split; [|split; [reflexivity|]].
  - split; [lia|]. split; [lia|]. split; [|split; [exact A'|]].
    + rewrite <- (Nat.add_0_r (p - 1)), ex_src_shift, Nat.add_0_r. exact P1.
    + rewrite <- (Nat.add_0_r (p + 30)). apply B'. lia.
  - intros j J. replace j with (p + 30 + (j - (p + 30))) by lia. apply B'. lia.
Qed.
Definition ex_quiet_tab (m : nat) : bool := negb (is_pix (ex_src (412 + m))).
Lemma ex_quiet_tab_ok : forallb ex_quiet_tab (seq 0 12) = true.
Proof. vm_compute. reflexivity. Qed.
Example ex_quiet : quiet_before ex_src ex_r.
Proof.
  intros f j J1 J2. unfold ex_r in *. replace j with (552 * f + (412 + (j - (552 * f + 412)))) by lia. rewrite ex_src_per.
  pose proof ex_quiet_tab_ok as T. rewrite forallb_forall in T. apply negb_true_iff. apply T, in_seq. lia.
Qed.

Definition ex_slot_in16 (t : nat) : cap_in :=
  {| cap_pix := Nat.eqb (t mod 4) 0; cap_sys := true; cap_pk := hdmi_ycc_stream 2 rh_init ex_hraw2 (t / 4); cap_mready := Nat.odd t;
     cap_wbusy := false; cap_size := 180;
     cap_sw := if Nat.eqb t 4 then SwAddr 0 64 else if Nat.eqb t (60 * 100) then SwStatus 0 1 else SwNone; cap_mp := 1; cap_mc := 0 |}%Z.
(** All hypotheses hold. *)
Example ex_slot_filled_422 : exists z f, 6 * 1000 < z /\
  slot_status 4 2 16 8 32 2 (repeat fe_word0 16) 0 2 ex_slot_in16 z 0 = 2%Z /\ length (picture_422 ex_src ex_r f) = 90.
Proof.
  destruct ex_source as (S1 & S2 & S3 & S4 & S5 & S6 & S7 & _ & S9).
  destruct (C138_hdmi_to_slot_422 ex_src ex_W S1 ex_L ex_hraw2 S5 rh_init S6 S7 1 40 72 S4) as (E0 & HE & X).
  assert (EB : E0 <= 20). { specialize (HE 0 ltac:(lia)). assert (ex_L 0 / 10 <= 6) by (apply Nat.leb_le; vm_compute; reflexivity). lia. }
  destruct (X ex_hs HdmiSrcProps.ex_vs true false S2 S3 210) with (k := 1) (m := 45) (r := ex_r) (n := 4%Z) (aw := 8%Z) (align := 2%Z) (mem := repeat fe_word0 16)
    (ra := 0%Z) (ns := 2) (i := ex_slot_in16) (K := 1) (E := 0) (B := 6) (T0 := 4 * (ex_r 1 + E0 + 2)) (w := 60 * 100) (c := 0)
    as (z & Z1 & Z2 & Z3).
  - lia.
  - exact S9.
  - apply ex_paired.
  - lia.
  - lia.
  - exact ex_frames.
  - exact ex_quiet.
  - unfold ex_r. lia.
  - lia.
  - reflexivity.
  - lia.
  - intros t H. change (cap_pix (ex_live_in t) = true) in H. pose proof (ex_live_pix 0 t) as Q. rewrite (CaptureLiveProps.ex_mod (0 + t)) in Q. cbn [Nat.add] in Q.
    cbn [cap_pix ex_live_in] in H. rewrite H in Q. apply Nat.eqb_eq in H. pose proof (Nat.div_mod t 4 ltac:(lia)) as D.
    cbn [cap_pk ex_slot_in16]. change (2 ^ 1) with 2. f_equal. change (3 mod 4) with 3 in Q. cbn [cap_pix ex_live_in ex_slot_in16] in Q |- *. lia.
  - exact ex_live_mem.
  - intros u t UT H. change (occurrences (fun t => cap_sys (ex_live_in t)) u (t - u) <= 0). rewrite ex_live_sys.
    destruct (Nat.le_gt_cases (t - u) 0) as [L|L]; [exact L|]. exfalso. specialize (H u ltac:(lia) eq_refl). discriminate.
  - change 6 with (4 / 2 ^ 1 + (1 + 0 + 3)). apply clocks_slow_enough; [lia|]. intros a b _.
    pose proof (ex_live_sys a (b - a)) as QS. pose proof (ex_live_pix a (b - a)) as QP.
    cbn [cap_sys cap_pix ex_live_in ex_slot_in16] in QS, QP |- *. rewrite QS. pose proof (Nat.mod_upper_bound (a + 3) 4 ltac:(lia)).
    change (2 ^ 1) with 2. lia.
  - apply Nat.ltb_lt; vm_compute; reflexivity.
  - exact (proj1 ex_live_running).
  - exact (proj2 ex_live_running).
  - pose proof (ex_live_pix 0 (4 * (ex_r 1 + E0 + 2))) as QP. change (3 mod 4) with 3 in QP. cbn [Nat.add] in QP. change ((0 + 3) mod 4) with 3 in QP.
    replace (4 * (ex_r 1 + E0 + 2) + 3) with (3 + (ex_r 1 + E0 + 2) * 4) in QP at 1 by lia. rewrite Nat.mod_add in QP by lia. change (3 mod 4) with 3 in QP.
    cbn [cap_pix ex_live_in ex_slot_in16] in QP |- *. lia.
  - unfold ex_r. lia.
  - pose proof (ex_live_sys (4 * (ex_r 1 + E0 + 2)) (60 * 100 - 4 * (ex_r 1 + E0 + 2))) as QS. cbn [cap_sys ex_live_in ex_slot_in16] in QS |- *. rewrite QS.
    unfold ex_r. lia.
  - destruct (idle_at_first 4%Z (2 ^ 1) 16%Z 8%Z (16 * Z.of_nat (2 ^ 1))%Z 2%Z (repeat fe_word0 16) 0%Z 2 ex_slot_in16 (60 * 100)) as [A B].
    { intros t j v T. cbn [cap_sw ex_slot_in16]. destruct (Nat.eqb t 4); [discriminate|]. destruct (Nat.eqb_spec t (60 * 100)); [lia|discriminate]. }
    constructor; try assumption.
    + lia.
    + reflexivity.
    + intros t T. cbn [cap_sw ex_slot_in16]. destruct (Nat.eqb_spec t 4); [lia|]. destruct (Nat.eqb_spec t (60 * 100)); [lia|reflexivity].
    + intros j _. left. apply B.
  - intros t _. vm_compute. reflexivity.
  - destruct (Z3 (fun _ => 0%Z)) as (f & _ & PL & _). exists z, f. split; [lia|]. split; [exact Z2|exact PL].
Qed.
(** First three and last three pixels of a line (source: 180 28 236, 181 31 243, ...), and two clocks after it. *)
Example ex_stored_422 : map (stored_slot_422 ex_src) (seq 180 3 ++ seq 207 5) =
  [Some 0xE056; Some 0xC659; Some 0x5F4D; Some 0xB095; Some 0x4D97; Some 0x9CFE; None; None]%Z.
Proof. vm_compute. reflexivity. Qed.
