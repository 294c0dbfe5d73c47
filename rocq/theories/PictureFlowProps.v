(** C141, C142: a slot is filled soon after its frame has arrived, and captures go on without end. *)
From Coq Require Import ZArith List Bool Lia Arith.
From Verif Require Import Hdl Trace CdcProofs AnalysisModel FrameProofs FrameProps InDmaModel InDmaProofs InDmaProps FifoModel FifoProofs FifoProps
  CaptureModel CaptureProofs CaptureProps CaptureRateProofs CaptureLiveProofs CaptureLiveProps FairProofs FairProps PictureOrderProps PictureSkipProps.
Import ListNotations.
Open Scope nat_scope.

(** Whenever the DMA is idle and some slot is loaded, a capture starts. *)
Lemma idle_starts : forall n F lw aw dw align mem ra ns i X K E B b m words T0,
  streaming n F lw aw dw align mem ra ns i X K E B b m words T0 ->
  forall u c, dma_idle n F lw aw dw align mem ra ns i u -> c < ns -> Z.odd (slot_status n F lw aw dw align mem ra ns i u c) = true ->
  exists x, next_start n F lw aw dw align mem ra ns i u x.
Proof.
  intros n F lw aw dw align mem ra ns i X K E B b m words T0 [N HM Haw NS HX H1 H2 H3 HD Hsys Hpix M1 HB HT SZ POL] u c ID CN LC.
  assert (LO : forall s, Z.odd (sl_status s) = sl_loaded s) by (intros s; unfold sl_loaded; symmetry; apply Z.bit0_odd).
  assert (P2 : forall t j, c_sys i t = true -> sl_loaded (nth j (dm_slots (cap_dma (cap_run n F lw aw dw align mem ra (dma_init ns) i t))) slot0) = true -> untouched (cap_sw (i t)) j).
  { intros t j Q1 L. apply (POL t j Q1). unfold slot_status. rewrite LO. exact L. }
  pose proof (lv_mem i K H1) as HM1. pose proof (lv_drain n F lw aw dw align mem ra (dma_init ns) i E H2) as HD1.
  pose proof (lv_sof n F lw aw dw align mem ra (dma_init ns) i N HM K E B X HX H1 H2 H3 HD b m words M1 HB T0 HT Hpix) as SOF.
  set (st := fun t => cap_run n F lw aw dw align mem ra (dma_init ns) i t).
  set (dma := fun t => cap_dma (st t)). set (din := c_din n F lw aw dw align mem ra (dma_init ns) i).
  assert (FSM : forall t, dma (S t) = if c_sys i t then dma_step aw dw align (dma t) (din t) else dma t) by (intros t; apply c_dma_step).
  assert (LEN : forall t, length (dm_slots (dma t)) = ns) by (intros t; apply slots_count).
  assert (CUR : forall t, dm_cur (dma t) < ns) by (intros t; apply cur_range; exact NS).
  assert (SLOT : forall t, dm_slot (dma t) = nth (dm_cur (dma t)) (dm_slots (dma t)) slot0).
  { intros t. unfold dm_slot. rewrite LEN. f_equal. pose proof (CUR t). lia. }
  assert (WAIT : forall v, dm_fsm (dma v) = WAIT_SOF -> dm_av (dma v) = true -> exists x, next_start n F lw aw dw align mem ra ns i v x).
  { intros v FV AV. set (d := dm_cur (dma v)).
    assert (SL : sl_loaded (nth d (dm_slots (dma v)) slot0) = true) by (unfold d; rewrite <- SLOT; exact AV).
    assert (SW : forall t, v <= t -> c_sys i t = true -> sl_loaded (nth d (dm_slots (dma t)) slot0) = true -> untouched (cap_sw (i t)) d) by (intros t _; apply P2).
    assert (CL : d < length (dm_slots (dma v))) by (rewrite LEN; apply CUR).
    destruct (start_exists n F lw aw dw align mem ra (dma_init ns) i N HM K E HM1 HD1 Hsys SOF v d SW FV eq_refl CL SL) as (x & UX & ST & NST).
    exists x. split; [exact UX|]. split; [exact ST|exact NST]. }
  change (dm_fsm (dma u) = WAIT_SOF) in ID. unfold slot_status in LC. rewrite LO in LC. change (sl_loaded (nth c (dm_slots (dma u)) slot0) = true) in LC.
  destruct (dm_av (dma u)) eqn:AV; [apply WAIT; assumption|].
  destruct (Hsys u 1) as (t1 & T1 & O1). change (fun t => cap_sys (i t)) with (c_sys i) in O1.
  destruct (first_in (c_sys i) u (t1 - u)) as [G | (w & W1 & QW & NW)].
  { rewrite occ_zero in O1; [lia|exact G]. }
  assert (HOLD : forall v, u <= v -> v <= w -> dma v = dma u).
  { intros v UV. induction UV as [|v UV IH]; intros VW; [reflexivity|]. rewrite FSM, (NW v) by lia. apply IH. lia. }
  pose proof (HOLD w ltac:(lia) ltac:(lia)) as HW.
  assert (NOT : forall t, u <= t <= w -> c_starts n F lw aw dw align mem ra (dma_init ns) i t = false).
  { intros t T. unfold c_starts. fold din. change (cap_dma (cap_run n F lw aw dw align mem ra (dma_init ns) i t)) with (dma t). unfold dm_start.
    rewrite (HOLD t) by lia. rewrite ID, AV. apply andb_false_r. }
  destruct (WAIT (S w)) as (x & X1 & X2 & X3).
  - rewrite FSM, QW. unfold dma_step; cbn [dm_fsm]. unfold dm_start. rewrite HW, ID, AV. reflexivity.
  - assert (CW : dm_cur (dma (S w)) = lowest (dm_slots (dma u)) 0 (dm_cur (dma u))).
    { rewrite FSM, QW. unfold dma_step; cbn [dm_cur]. rewrite HW, AV. reflexivity. }
    destruct (lowest_spec (dm_slots (dma u)) 0 (dm_cur (dma u))) as [(h & G1 & G2 & G3 & _) | [NONE _]].
    2:{ rewrite NONE in LC by (rewrite LEN; exact CN). discriminate. }
    rewrite LEN in G1. rewrite Nat.add_0_l in G3. rewrite G3 in CW. unfold dm_av. rewrite SLOT, CW.
    rewrite <- HW in G2. etransitivity; [|exact G2]. f_equal. apply (fr_keep n F lw aw dw align mem ra ns i P2 w h G1 G2).
    intros _ D. exfalso. change (dm_done (dma w) (din w) = true) in D. unfold dm_done in D. rewrite HW, ID in D. discriminate.
  - exists x. split; [lia|]. split; [exact X2|]. intros t T. destruct (Nat.le_gt_cases t w) as [L|L]; [apply NOT; lia|apply X3; lia].
Qed.

(** Software is quick enough: when slot [c], loaded since its capture has started at [x], is marked at [z], another one is loaded.  Meanwhile no
    other slot is emptied and there are [m] sys clocks or more; these conditions always hold (C140) and only help to show [relayed]. *)
Definition relayed (n : Z) (F : nat) (lw aw dw align : Z) (mem : list (bool * list Z)) (ra : Z) (ns : nat) (i : nat -> cap_in) (m : nat) (settled : nat -> Prop) : Prop :=
  let loaded t c := Z.odd (slot_status n F lw aw dw align mem ra ns i t c) = true in
  forall x z c, settled x -> c_starts n F lw aw dw align mem ra (dma_init ns) i x = true -> x < z -> c < ns ->
  (forall t, x <= t < z -> loaded t c) -> slot_status n F lw aw dw align mem ra ns i z c = 2%Z ->
  (forall j t, j < ns -> j <> c -> x <= t < z -> loaded t j -> loaded (S t) j) -> m <= occurrences (fun t => cap_sys (i t)) x (z - x) ->
  exists c', c' < ns /\ loaded z c'.

(** It is if whenever a slot is marked as filled, another one is loaded. *)
Lemma quick_relayed : forall n F lw aw dw align mem ra ns i m settled, let loaded t c := Z.odd (slot_status n F lw aw dw align mem ra ns i t c) = true in
  (forall t c, c < ns -> loaded t c -> slot_status n F lw aw dw align mem ra ns i (S t) c = 2%Z -> exists c', c' < ns /\ loaded (S t) c') ->
  relayed n F lw aw dw align mem ra ns i m settled.
Proof.
  intros n F lw aw dw align mem ra ns i m settled loaded H x z c _ _ XZ C L M _ _. replace z with (S (z - 1)) in * by lia. apply (H (z - 1) c C); [apply L; lia|exact M].
Qed.

(** From the first event on one of two events remains. *)
Lemma occ_second : forall p a w v, a <= w -> (forall t, a <= t < w -> p t = false) -> p w = true -> 2 <= occurrences p a (v - a) ->
  1 <= occurrences p (S w) (v - S w).
Proof.
  intros p a w v AW NW PW H. destruct (Nat.le_gt_cases v w) as [L|L].
  - rewrite occ_zero in H; [lia|]. intros t T. apply NW. lia.
  - replace (v - a) with ((w - a) + (1 + (v - S w))) in H by lia. rewrite !occ_app in H. rewrite occ_zero in H by (intros t T; apply NW; lia).
    replace (a + (w - a)) with w in H by lia. replace (w + 1) with (S w) in H by lia. cbn [occurrences] in H. rewrite Nat.add_0_r, PW in H. lia.
Qed.

(** Both theorems with the same frame numbers. *)
Lemma flow : forall n F lw aw dw align mem ra ns i X K E B b m words T0,
  streaming n F lw aw dw align mem ra ns i X K E B b m words T0 ->
  let starts := c_starts n F lw aw dw align mem ra (dma_init ns) i in
  let settled t := T0 <= t /\ B + 2 * (E + K) + 10 <= occurrences (fun t => cap_sys (i t)) T0 (t - T0) in
  let loaded t c := Z.odd (slot_status n F lw aw dw align mem ra ns i t c) = true in
  exists fr : nat -> nat,
  (forall u c x, settled u -> dma_idle n F lw aw dw align mem ra ns i u -> c < ns -> loaded u c -> next_start n F lw aw dw align mem ra ns i u x ->
   forall v g, 1 <= occurrences (fun t => cap_sys (i t)) u (v - u) -> occurrences (fun u => cap_pix (i u)) 0 v <= b g -> fr x <= g) /\
  (forall x, settled x -> starts x = true ->
   exists z c, fills n F lw aw dw align mem ra ns i m words x z c (fr x) /\
   (forall x2, x < x2 -> starts x2 = true -> z <= x2 /\ fr x < fr x2) /\
   forall u k, b (fr x) + k <= occurrences (fun u => cap_pix (i u)) 0 u -> length (collect (word_out F X) (b (fr x)) k) = m ->
   occurrences (fun t => cap_sys (i t)) u (z - u) <= B + 3 * E + 2 * K + 11) /\
  (forall x0, relayed n F lw aw dw align mem ra ns i m (fun x => x0 <= x) ->
   settled x0 -> starts x0 = true ->
   forall N, exists x, x0 <= x /\ starts x = true /\ occurrences starts (S x0) (x - x0) = N /\ fr x0 + N <= fr x <= fr x0 + 2 * N /\
   ((forall f, exists u k, occurrences (fun t => cap_pix (i t)) 0 u = b f + k /\ length (collect (word_out F X) (b f) k) = m /\
      forall w, b (f + 1) < occurrences (fun t => cap_pix (i t)) 0 w -> B + 3 * E + 2 * K + 11 < occurrences (fun t => cap_sys (i t)) u (w - u)) ->
    fr x = fr x0 + N)).
Proof.
  intros n F lw aw dw align mem ra ns i X K E B b m words T0 SM starts settled loaded.
  destruct (C140_next_picture_partial n F lw aw dw align mem ra ns i X K E B b m words T0 SM) as (fr & FIRST & P).
  exists fr. split; [exact FIRST|]. split.
  { intros x SX ST. destruct (P x SX ST) as (z & c & FI & _ & ORD & LAT & _). exists z, c. split; [exact FI|]. split; [exact ORD|exact LAT]. }
  intros x0 QUICK S0 ST0.
  assert (SET : forall v, x0 <= v -> settled v).
  { intros v UV. destruct S0 as [U1 U2]. split; [lia|]. replace (v - T0) with ((x0 - T0) + (v - x0)) by lia. rewrite occ_app. lia. }
  intros N.
  induction N as [|N IH].
  { exists x0. rewrite Nat.sub_diag. split; [lia|]. split; [exact ST0|]. split; [reflexivity|]. split; lia. }
  destruct IH as (x & I1 & I2 & I3 & I4 & I5).
  destruct (P x (SET x I1) I2) as (z & c & FI & _ & ORD & LAT & (OTH & MW) & NXT). destruct FI as (XZ & CN & LD & FL & _).
  destruct (QUICK x z c I1 I2 ltac:(lia) CN LD FL OTH MW) as (c' & CN' & LC).
  destruct (NXT c' CN' LC) as (x2 & (Z2 & S2 & NS2) & TWO & _ & GAP).
  exists x2. split; [lia|]. split; [exact S2|]. split; [|split; [lia|]].
  - replace (x2 - x0) with ((x - x0) + (x2 - x)) by lia. rewrite occ_app, I3. replace (S x0 + (x - x0)) with (S x) by lia.
    replace (x2 - x) with ((x2 - x - 1) + 1) by lia. rewrite occ_app. replace (S x + (x2 - x - 1)) with x2 by lia.
    cbn [occurrences]. rewrite Nat.add_0_r. fold starts in S2. rewrite S2. rewrite occ_zero; [lia|]. intros t T.
    destruct (Nat.lt_ge_cases t z) as [L|L]; [|apply NS2; lia]. destruct (starts t) eqn:G; [|reflexivity].
    destruct (ORD t ltac:(lia) G) as [O _]. lia.
  - intros H. rewrite GAP, (I5 H); [lia|]. intros w ZW NS. destruct (Nat.le_gt_cases (occurrences (fun u => cap_pix (i u)) 0 w) (b (fr x + 1))) as [L|L]; [exact L|exfalso].
    destruct (H (fr x)) as (u & k & U1 & U2 & U3). specialize (U3 w L). pose proof (LAT u k ltac:(lia) U2) as LT.
    destruct (Nat.le_gt_cases u z) as [UZ|UZ].
    + rewrite (occ_split (fun t => cap_sys (i t)) u z w) in U3 by lia. rewrite (occ_zero (fun t => cap_sys (i t)) z) in U3; [lia|]. intros t T. apply NS. lia.
    + rewrite (occ_zero (fun t => cap_sys (i t)) u) in U3; [lia|]. intros t T. apply NS. lia.
Qed.

(** The slot in which frame [fr x] is put is marked as filled at most [B + 3 * E + 2 * K + 11] sys clocks after any instant [u] by which the
    packer has put out the [m] words of that frame. *)
Theorem C141_filled_soon : forall n F lw aw dw align mem ra ns i X K E B b m words T0,
  streaming n F lw aw dw align mem ra ns i X K E B b m words T0 ->
  let starts := c_starts n F lw aw dw align mem ra (dma_init ns) i in
  let settled t := T0 <= t /\ B + 2 * (E + K) + 10 <= occurrences (fun t => cap_sys (i t)) T0 (t - T0) in
  exists fr : nat -> nat, forall x, settled x -> starts x = true ->
  exists z c, fills n F lw aw dw align mem ra ns i m words x z c (fr x) /\
  (forall x2, x < x2 -> starts x2 = true -> z <= x2 /\ fr x < fr x2) /\
  forall u k, b (fr x) + k <= occurrences (fun u => cap_pix (i u)) 0 u -> length (collect (word_out F X) (b (fr x)) k) = m ->
  occurrences (fun t => cap_sys (i t)) u (z - u) <= B + 3 * E + 2 * K + 11.
Proof.
  intros n F lw aw dw align mem ra ns i X K E B b m words T0 SM starts settled.
  destruct (flow n F lw aw dw align mem ra ns i X K E B b m words T0 SM) as (fr & _ & P & _). exists fr. exact P.
Qed.
Print Assumptions C141_filled_soon.

(** Software is quick: when a slot is marked as filled, another one is loaded ([relayed]).  A capture starts whenever the DMA is idle and a slot is loaded, and it holds no later frame than
    the first one that begins after one more sys clock.  After every capture there is an [N]-th next one, for
    every [N], and at least every second frame is captured.  If moreover between the last word of a frame and the beginning of the next
    frame there are more than [B + 3 * E + 2 * K + 11] sys clocks, the [N]-th next capture holds the [N]-th next frame. *)
Theorem C142_continuous_capture : forall n F lw aw dw align mem ra ns i X K E B b m words T0,
  streaming n F lw aw dw align mem ra ns i X K E B b m words T0 ->
  let starts := c_starts n F lw aw dw align mem ra (dma_init ns) i in
  let settled t := T0 <= t /\ B + 2 * (E + K) + 10 <= occurrences (fun t => cap_sys (i t)) T0 (t - T0) in
  let loaded t c := Z.odd (slot_status n F lw aw dw align mem ra ns i t c) = true in
  exists fr : nat -> nat,
  (forall u c, dma_idle n F lw aw dw align mem ra ns i u -> c < ns -> loaded u c -> exists x0, next_start n F lw aw dw align mem ra ns i u x0 /\
   (settled u -> forall v g, 1 <= occurrences (fun t => cap_sys (i t)) u (v - u) -> occurrences (fun u => cap_pix (i u)) 0 v <= b g -> fr x0 <= g)) /\
  forall x0, relayed n F lw aw dw align mem ra ns i m (fun x => x0 <= x) -> settled x0 -> starts x0 = true ->
  forall N, exists x z c, x0 <= x /\ starts x = true /\ occurrences starts (S x0) (x - x0) = N /\
  fills n F lw aw dw align mem ra ns i m words x z c (fr x) /\ fr x0 + N <= fr x <= fr x0 + 2 * N /\
  ((forall f, exists u k, occurrences (fun t => cap_pix (i t)) 0 u = b f + k /\ length (collect (word_out F X) (b f) k) = m /\
     forall w, b (f + 1) < occurrences (fun t => cap_pix (i t)) 0 w -> B + 3 * E + 2 * K + 11 < occurrences (fun t => cap_sys (i t)) u (w - u)) ->
   fr x = fr x0 + N).
Proof.
  intros n F lw aw dw align mem ra ns i X K E B b m words T0 SM starts settled loaded.
  destruct (flow n F lw aw dw align mem ra ns i X K E B b m words T0 SM) as (fr & FIRST & P & R).
  exists fr. split.
  { intros u c ID CN LC. destruct (idle_starts n F lw aw dw align mem ra ns i X K E B b m words T0 SM u c ID CN LC) as (x & NX). exists x. split; [exact NX|].
    intros SU. exact (FIRST u c x SU ID CN LC NX). } intros x0 QUICK S0 ST0 N. destruct (R x0 QUICK S0 ST0 N) as (x & I1 & I2 & I3 & I4 & I5).
  destruct (P x) as (z & c & FI & _); [|exact I2|].
  { destruct S0 as [U1 U2]. split; [lia|]. replace (x - T0) with ((x0 - T0) + (x - x0)) by lia. rewrite occ_app. lia. }
  exists x, z, c. split; [exact I1|]. split; [exact I2|]. split; [exact I3|]. split; [exact FI|]. split; [exact I4|exact I5].
Qed.
Print Assumptions C142_continuous_capture.

(** * A run in which every frame is captured *)
(** Frames of one word (two pixels) every 32 clocks; the memory takes no word in two of four clocks and its last write may take one more.
    Software writes the address of each of two slots and loads it again twelve clocks after it was filled. *)
Definition fl_pk (t : nat) : pk_in := {| pki_vsync := Nat.eqb (t mod 32) 0; pki_we := Nat.eqb (t mod 32) 1 || Nat.eqb (t mod 32) 2; pki_px := Z.of_nat (t mod 64) |}.
Definition fl_sw (t : nat) : sw :=
  if Nat.eqb t 4 then SwAddr 1 128 else if Nat.eqb t 19 then SwStatus 1 1
  else if Nat.eqb (t mod 64) 16 then SwAddr 0 64 else if Nat.eqb (t mod 64) 20 then SwStatus 0 1
  else if Nat.eqb (t mod 64) 48 then SwAddr 1 128 else if Nat.eqb (t mod 64) 52 then SwStatus 1 1 else SwNone.
Definition fl_in (t : nat) : cap_in :=
  {| cap_pix := true; cap_sys := true; cap_pk := fl_pk t; cap_mready := Nat.leb 2 (t mod 4); cap_wbusy := Nat.eqb (t mod 4) 1; cap_size := 8;
     cap_sw := fl_sw t; cap_mp := 31; cap_mc := 0 |}.
Definition fl_b (f : nat) : nat := 32 * f + 32.
Definition fl_words (f j : nat) : list Z := [Z.of_nat ((32 * f + 34) mod 64); Z.of_nat ((32 * f + 33) mod 64)].
Definition fl_mem : list (bool * list Z) := repeat fe_word0 8.
Definition fl_run (t : nat) : cap_st := cap_run 3 2 32 8 64 3 fl_mem 0 (dma_init 2) fl_in t.

Lemma fl_mod : forall t k p q, q = k * p -> p <> 0 -> (t + q) mod p = t mod p.
Proof. intros t k p q -> H. apply Nat.mod_add. exact H. Qed.
Lemma fl_pk_per : forall t, fl_pk (t + 64) = fl_pk t.
Proof. intros t. unfold fl_pk. rewrite (fl_mod t 2 32 64), (fl_mod t 1 64 64) by lia. reflexivity. Qed.
Lemma fl_in_per : forall t, 256 <= t -> fl_in (t + 512) = fl_in t.
Proof.
  intros t T. unfold fl_in. replace (fl_pk (t + 512)) with (fl_pk t).
  2:{ replace (t + 512) with (t + 64 + 64 + 64 + 64 + 64 + 64 + 64 + 64) by lia. rewrite !fl_pk_per. reflexivity. }
  rewrite (fl_mod t 128 4 512) by lia. f_equal. unfold fl_sw. rewrite (fl_mod t 8 64 512) by lia.
  assert (A : forall j, j < 256 -> Nat.eqb t j = false /\ Nat.eqb (t + 512) j = false) by (intros j J; split; apply Nat.eqb_neq; lia).
  rewrite !(proj1 (A 4 ltac:(lia))), !(proj2 (A 4 ltac:(lia))), !(proj1 (A 19 ltac:(lia))), !(proj2 (A 19 ltac:(lia))). reflexivity.
Qed.
Lemma fl_run_per : forall t, 256 <= t -> fl_run (t + 512) = fl_run t.
Proof. apply periodic; [vm_compute; reflexivity|exact fl_in_per]. Qed.

(** A check of consecutive states. *)
Fixpoint scan (p : nat -> cap_st -> cap_st -> bool) (s : cap_st) (t k : nat) : bool :=
  match k with O => true | S k => let s' := cap_step 3 2 32 8 64 3 s (fl_in t) in p t s s' && scan p s' (S t) k end.
Lemma scan_sound : forall p k t, scan p (fl_run t) t k = true -> forall v, t <= v < t + k -> p v (fl_run v) (fl_run (S v)) = true.
Proof.
  intros p. induction k as [|k IH]; intros t H v V; [lia|]. cbn [scan] in H. apply andb_prop in H as [H1 H2].
  destruct (Nat.eq_dec v t) as [->|]; [exact H1|]. apply (IH (S t)); [exact H2|lia].
Qed.
Lemma fl_always : forall p, (forall t s s', 256 <= t -> p (t + 512) s s' = p t s s') -> scan p (fl_run 0) 0 768 = true ->
  forall t, p t (fl_run t) (fl_run (S t)) = true.
Proof.
  intros p PP H t. induction t as [t IH] using lt_wf_ind. destruct (Nat.lt_ge_cases t 768) as [L|L]; [apply (scan_sound p 768 0 H); lia|].
  specialize (IH (t - 512) ltac:(lia)). replace t with ((t - 512) + 512) by lia. change (S (t - 512 + 512)) with (S (t - 512) + 512).
  rewrite !fl_run_per by lia. rewrite PP by lia. exact IH.
Qed.

Lemma fl_pk_run_per : forall t, 4 <= t -> pk_run 2 fl_pk (t + 64) = pk_run 2 fl_pk t.
Proof. apply periodic; [vm_compute; reflexivity|]. intros t _. apply fl_pk_per. Qed.
Lemma fl_word_per : forall a L, 4 <= a -> collect (word_out 2 fl_pk) (a + 64) L = collect (word_out 2 fl_pk) a L.
Proof.
  intros a L A. induction L as [|L IH]; [reflexivity|]. cbn [collect]. rewrite IH. unfold word_out. replace (a + 64 + L) with (a + L + 64) by lia.
  rewrite fl_pk_run_per by lia. reflexivity.
Qed.
Lemma fl_window : forall f, collect (word_out 2 fl_pk) (fl_b f) 4 = map (fun j => (Nat.eqb j 0, fl_words f j)) (seq 0 1) /\
  collect (word_out 2 fl_pk) (fl_b f + 4) 28 = [].
Proof.
  intros f. induction f as [f IH] using lt_wf_ind. destruct (Nat.lt_ge_cases f 2) as [L|L].
  - destruct f as [|[|f]]; try lia; vm_compute; split; reflexivity.
  - destruct (IH (f - 2) ltac:(lia)) as [I1 I2]. unfold fl_b, fl_words in *. replace (32 * f + 32) with (32 * (f - 2) + 32 + 64) by lia.
    replace (32 * (f - 2) + 32 + 64 + 4) with (32 * (f - 2) + 32 + 4 + 64) by lia. rewrite !fl_word_per by lia. rewrite I1, I2.
    replace (32 * f + 34) with (32 * (f - 2) + 34 + 64) by lia. replace (32 * f + 33) with (32 * (f - 2) + 33 + 64) by lia.
    rewrite !(fl_mod _ 1 64 64) by lia. split; reflexivity.
Qed.
Lemma fl_frames : forall f, fl_b f <= fl_b (S f) /\
  collect (word_out 2 fl_pk) (fl_b f) (fl_b (S f) - fl_b f) = map (fun j => (Nat.eqb j 0, fl_words f j)) (seq 0 1).
Proof.
  intros f. split; [unfold fl_b; lia|]. replace (fl_b (S f) - fl_b f) with (4 + 28) by (unfold fl_b; lia). rewrite collect_app.
  destruct (fl_window f) as [-> ->]. apply app_nil_r.
Qed.
Lemma fl_word_at : forall t, word_out 2 fl_pk t <> None -> t mod 32 = 3.
Proof.
  assert (B : forall t, t < 68 -> word_out 2 fl_pk t <> None -> t mod 32 = 3).
  { intros t T H. assert (G : forallb (fun t => match word_out 2 fl_pk t with None => true | Some _ => Nat.eqb (t mod 32) 3 end) (seq 0 68) = true) by (vm_compute; reflexivity).
    rewrite forallb_forall in G. specialize (G t ltac:(apply in_seq; lia)). destruct (word_out 2 fl_pk t); [apply Nat.eqb_eq; exact G|contradiction]. }
  intros t. induction t as [t IH] using lt_wf_ind. intros H. destruct (Nat.lt_ge_cases t 68) as [L|L]; [apply B; assumption|].
  specialize (IH (t - 64) ltac:(lia)). unfold word_out in *. replace t with ((t - 64) + 64) in H by lia. rewrite fl_pk_run_per in H by lia. specialize (IH H).
  replace t with ((t - 64) + 64) by lia. rewrite (fl_mod _ 2 32 64) by lia. exact IH.
Qed.
Lemma fl_count : forall a L, 32 * length (collect (word_out 2 fl_pk) a L) + (a + L + 28) mod 32 <= L + (a + 28) mod 32.
Proof.
  intros a L. induction L as [|L IH]; [rewrite Nat.add_0_r; cbn [collect length]; lia|]. cbn [collect]. rewrite app_length.
  replace (a + S L + 28) with (a + L + 28 + 1) by lia. set (t := a + L) in *.
  assert (M : (t + 28 + 1) mod 32 = if Nat.eqb (t mod 32) 3 then 0 else (t + 28) mod 32 + 1).
  { pose proof (Nat.div_mod t 32 ltac:(lia)) as D. pose proof (Nat.mod_upper_bound t 32 ltac:(lia)) as U. set (q := t / 32) in *. set (r := t mod 32) in *.
    assert (Q : exists c, (t + 28) mod 32 = r + 28 - 32 * c /\ (t + 28 = 32 * (q + c) + (r + 28 - 32 * c)) /\ r + 28 - 32 * c < 32 /\ (c = 0 \/ c = 1) /\ 32 * c <= r + 28).
    { destruct (Nat.le_gt_cases r 3); [exists 0|exists 1]; (split; [symmetry; apply Nat.mod_unique with (q + (if Nat.leb r 3 then 0 else 1)); destruct (Nat.leb_spec r 3); lia|lia]). }
    destruct Q as (c & -> & Q1 & Q2 & Q3 & Q4). destruct (Nat.eqb_spec r 3); symmetry; [apply Nat.mod_unique with (q + 1)|apply Nat.mod_unique with (q + c)]; lia. }
  rewrite M. destruct (word_out 2 fl_pk t) eqn:W.
  - rewrite (fl_word_at t) in * by (rewrite W; discriminate). cbn [Nat.eqb length]. pose proof (fl_word_at t ltac:(rewrite W; discriminate)) as R.
    pose proof (Nat.div_mod t 32 ltac:(lia)) as D. assert (Q : (t + 28) mod 32 = 31) by (symmetry; apply Nat.mod_unique with (t / 32); lia). lia.
  - cbn [length]. pose proof (Nat.mod_upper_bound (t + 28) 32 ltac:(lia)). destruct (Nat.eqb (t mod 32) 3); lia.
Qed.
Lemma fl_occ : forall a L, occurrences (fun _ => true) a L = L.
Proof. intros a L. induction L as [|L IH]; [reflexivity|]. cbn [occurrences]. rewrite IH. lia. Qed.
Lemma fl_slow : slow_enough 2 fl_pk (fun t => cap_pix (fl_in t)) (fun t => cap_sys (fl_in t)) 2 1 6.
Proof.
  intros a b AB. change (fun t => cap_pix (fl_in t)) with (fun _ : nat => true). change (fun t => cap_sys (fl_in t)) with (fun _ : nat => true). rewrite !fl_occ.
  pose proof (fl_count a (b - a)) as C. pose proof (Nat.mod_upper_bound (a + 28) 32 ltac:(lia)). unfold needed. set (ws := collect (word_out 2 fl_pk) a (b - a)) in *.
  assert (FL : forall l : list (bool * list Z), length (filter fst l) <= length l).
  { induction l as [|w l IH]; [reflexivity|]. cbn [filter length]. destruct (fst w); cbn [length]; lia. }
  pose proof (FL ws). destruct (Nat.eq_dec (length ws) 0) as [Z0|]; [|]; lia.
Qed.
Lemma fl_runs_on : keeps_running (fun _ => true).
Proof. intros u k. exists (u + k). rewrite fl_occ. lia. Qed.
Definition fl_polite (t : nat) (s s' : cap_st) : bool :=
  forallb (fun j => negb (Z.odd (sl_status (nth j (dm_slots (cap_dma s)) slot0))) ||
    match fl_sw t with SwNone => true | SwStatus k _ => negb (Nat.eqb k j) | SwAddr k _ => negb (Nat.eqb k j) end) [0; 1].
Lemma fl_is_polite : forall t, fl_polite t (fl_run t) (fl_run (S t)) = true.
Proof.
  apply fl_always; [|vm_compute; reflexivity]. intros t s s' T. unfold fl_polite.
  replace (fl_sw (t + 512)) with (fl_sw t) by exact (eq_sym (f_equal cap_sw (fl_in_per t T))). reflexivity.
Qed.
Example fl_streaming : streaming 3 2 32 8 64 3 fl_mem 0 2 fl_in fl_pk 2 1 6 fl_b 1 fl_words 32.
Proof.
  constructor; try exact fl_frames; try exact fl_slow; try exact fl_runs_on; try lia.
  - reflexivity.
  - intros t _. change (fun u => cap_pix (fl_in u)) with (fun _ : nat => true). rewrite fl_occ. reflexivity.
  - intros u t UT H. change (fun t => cap_sys (fl_in t)) with (fun _ : nat => true). rewrite fl_occ.
    destruct (Nat.le_gt_cases (t - u) 2) as [L|L]; [exact L|exfalso].
    assert (G : forall d, d <= 2 -> (u + d) mod 4 < 2). { intros d D. specialize (H (u + d) ltac:(lia) eq_refl). cbn [cap_mready fl_in] in H. apply negb_true_iff, Nat.leb_gt in H. exact H. }
    pose proof (G 0 ltac:(lia)) as G0. pose proof (G 1 ltac:(lia)) as G1. pose proof (G 2 ltac:(lia)) as G2.
    pose proof (Nat.div_mod (u + 0) 4 ltac:(lia)). pose proof (Nat.div_mod (u + 1) 4 ltac:(lia)). pose proof (Nat.div_mod (u + 2) 4 ltac:(lia)). lia.
  - intros u t UT H. change (fun t => cap_sys (fl_in t)) with (fun _ : nat => true). rewrite fl_occ.
    destruct (Nat.le_gt_cases (t - u) 1) as [L|L]; [exact L|exfalso].
    assert (G : forall d, d <= 1 -> (u + d) mod 4 = 1). { intros d D. specialize (H (u + d) ltac:(lia) eq_refl). apply andb_prop in H as [H _]. cbn [cap_wbusy fl_in] in H. apply Nat.eqb_eq in H. exact H. }
    pose proof (G 0 ltac:(lia)) as G0. pose proof (G 1 ltac:(lia)) as G1.
    pose proof (Nat.div_mod (u + 0) 4 ltac:(lia)). pose proof (Nat.div_mod (u + 1) 4 ltac:(lia)). lia.
  - apply Nat.ltb_lt. vm_compute. reflexivity.
  - vm_compute. reflexivity.
  - intros t _. vm_compute. reflexivity.
  - intros t j _ L. pose proof (fl_is_polite t) as P. unfold fl_polite in P. rewrite forallb_forall in P. change (cap_sw (fl_in t)) with (fl_sw t).
    unfold slot_status in L. change (cap_run 3 2 32 8 64 3 fl_mem 0 (dma_init 2) fl_in t) with (fl_run t) in L.
    assert (LEN : length (dm_slots (cap_dma (fl_run t))) = 2) by apply slots_count.
    destruct (Nat.lt_ge_cases j 2) as [J|J]; [|rewrite nth_overflow in L by lia; discriminate].
    specialize (P j ltac:(destruct j as [|[|j]]; [left|right; left|lia]; reflexivity)). rewrite L in P. cbn [negb orb] in P.
    destruct (fl_sw t); [exact I| |]; apply negb_true_iff, Nat.eqb_neq in P; exact P.
Qed.

Definition fl_refilled (t : nat) (s s' : cap_st) : bool :=
  let st s j := sl_status (nth j (dm_slots (cap_dma s)) slot0) in
  forallb (fun j => negb (Z.odd (st s j) && Z.eqb (st s' j) 2) || existsb (fun k => Z.odd (st s' k)) [0; 1]) [0; 1].
Lemma fl_quick : forall t c, c < 2 -> Z.odd (slot_status 3 2 32 8 64 3 fl_mem 0 2 fl_in t c) = true ->
  slot_status 3 2 32 8 64 3 fl_mem 0 2 fl_in (S t) c = 2%Z -> exists c', c' < 2 /\ Z.odd (slot_status 3 2 32 8 64 3 fl_mem 0 2 fl_in (S t) c') = true.
Proof.
  intros t c C L F. assert (P : fl_refilled t (fl_run t) (fl_run (S t)) = true).
  { apply fl_always; [reflexivity|vm_compute; reflexivity]. }
  unfold fl_refilled in P. rewrite forallb_forall in P. specialize (P c ltac:(destruct c as [|[|c]]; [left|right; left|lia]; reflexivity)).
  unfold slot_status in *. fold (fl_run t) in L. fold (fl_run (S t)) in F |- *. rewrite L, F in P. cbn [Z.eqb Pos.eqb andb negb orb] in P.
  apply existsb_exists in P as (k & K1 & K2). exists k. split; [destruct K1 as [<-|[<-|[]]]; lia|exact K2].
Qed.
Lemma fl_gap : forall f, exists u k, occurrences (fun t => cap_pix (fl_in t)) 0 u = fl_b f + k /\ length (collect (word_out 2 fl_pk) (fl_b f) k) = 1 /\
  forall w, fl_b (f + 1) < occurrences (fun t => cap_pix (fl_in t)) 0 w -> 6 + 3 * 1 + 2 * 2 + 11 < occurrences (fun t => cap_sys (fl_in t)) u (w - u).
Proof.
  intros f. change (fun t => cap_pix (fl_in t)) with (fun _ : nat => true). change (fun t => cap_sys (fl_in t)) with (fun _ : nat => true).
  exists (fl_b f + 4), 4. rewrite fl_occ. split; [reflexivity|]. split; [destruct (fl_window f) as [-> _]; reflexivity|].
  intros w W. rewrite fl_occ in *. unfold fl_b in *. lia.
Qed.
Lemma fl_settled : 32 <= 69 /\ 6 + 2 * (1 + 2) + 10 <= occurrences (fun t => cap_sys (fl_in t)) 32 (69 - 32).
Proof. change (fun t => cap_sys (fl_in t)) with (fun _ : nat => true). rewrite fl_occ. lia. Qed.
Lemma fl_start : c_starts 3 2 32 8 64 3 fl_mem 0 (dma_init 2) fl_in 69 = true.
Proof. vm_compute. reflexivity. Qed.

(** The capture that starts at 69: its slot is filled at most 24 clocks after the last word of its frame. *)
Example ex_soon : exists (fr : nat -> nat) z c, fills 3 2 32 8 64 3 fl_mem 0 2 fl_in 1 fl_words 69 z c (fr 69) /\ z <= fl_b (fr 69) + 28.
Proof.
  destruct (C141_filled_soon _ _ _ _ _ _ _ _ _ _ _ _ _ _ _ _ _ _ fl_streaming) as (fr & H). destruct (H 69 fl_settled fl_start) as (z & c & F1 & _ & F2).
  exists fr, z, c. split; [exact F1|]. specialize (F2 (fl_b (fr 69) + 4) 4).
  change (fun t => cap_pix (fl_in t)) with (fun _ : nat => true) in F2. change (fun t => cap_sys (fl_in t)) with (fun _ : nat => true) in F2. rewrite !fl_occ in F2.
  specialize (F2 ltac:(lia)). destruct (fl_window (fr 69)) as [W _]. rewrite W in F2. specialize (F2 eq_refl). lia.
Qed.
(** Every frame from some frame on is put into one of the two slots. *)
Example ex_flow : exists f0, forall f, f0 <= f -> exists x z c, 69 <= x /\ fills 3 2 32 8 64 3 fl_mem 0 2 fl_in 1 fl_words x z c f.
Proof.
  destruct (C142_continuous_capture _ _ _ _ _ _ _ _ _ _ _ _ _ _ _ _ _ _ fl_streaming) as (fr & _ & H).
  exists (fr 69). intros f FF. destruct (H 69 (quick_relayed _ _ _ _ _ _ _ _ _ _ _ _ fl_quick) fl_settled fl_start (f - fr 69)) as (x & z & c & X0 & _ & _ & FI & _ & G). exists x, z, c.
  split; [exact X0|]. rewrite (G fl_gap) in FI. replace (fr 69 + (f - fr 69)) with f in FI by lia. exact FI.
Qed.
