(** C98 and C99: software that reloads slots while frames keep arriving. *)
From Coq Require Import ZArith List Bool Lia Arith.
From Verif Require Import Hdl Trace CdcProofs AnalysisModel FrameProofs FrameProps InDmaModel InDmaProofs InDmaProps FifoModel FifoProofs FifoProps
  CaptureModel CaptureProofs CaptureProps CaptureRateProofs CaptureLiveProofs CaptureLiveProps FairProofs.
Import ListNotations.
Open Scope nat_scope.

(** Frames of [m] words keep arriving from instant [T0] on, the memory keeps up, and
    software never writes a register of a loaded slot (status bit 0 set); it may write
    those of all others at any time, in particular load them again. *)
Record streaming (n : Z) (F : nat) (lw aw dw align : Z) (mem : list (bool * list Z)) (ra : Z) (ns : nat) (i : nat -> cap_in)
    (X : nat -> pk_in) (K E B : nat) (b : nat -> nat) (m : nat) (words : nat -> nat -> list Z) (T0 : nat) : Prop := {
  sm_depth : (1 <= n)%Z;
  sm_mem : Z.of_nat (length mem) = (2 ^ n)%Z;
  sm_aw : (0 < aw)%Z;
  sm_slots : 1 <= ns;
  sm_stream : forall t, cap_pix (i t) = true -> cap_pk (i t) = X (occurrences (fun u => cap_pix (i u)) 0 t);
  sm_pause : runs_bounded (fun t => cap_sys (i t)) (fun t => negb (cap_mready (i t))) K;
  sm_drain : runs_bounded (fun t => cap_sys (i t))
    (fun t => cap_wbusy (i t) && match c_write n F lw aw dw align mem ra (dma_init ns) i t with None => true | Some _ => false end) E;
  sm_rate : slow_enough F X (fun t => cap_pix (i t)) (fun t => cap_sys (i t)) K E B;
  sm_fifo : B + E + K + 5 < (K + 1) * (2 ^ Z.to_nat n - 2);
  sm_sys : keeps_running (fun t => cap_sys (i t));
  sm_pix : keeps_running (fun t => cap_pix (i t));
  sm_words : 1 <= m;
  sm_frames : forall f, b f <= b (S f) /\
    collect (word_out F X) (b f) (b (S f) - b f) = map (fun j => (Nat.eqb j 0, words f j)) (seq 0 m);
  sm_from : occurrences (fun u => cap_pix (i u)) 0 T0 = b 0;
  sm_size : forall t, T0 <= t -> Z.of_nat m = size_words aw align (cap_size (i t));
  sm_polite : forall t j, cap_sys (i t) = true -> Z.odd (slot_status n F lw aw dw align mem ra ns i t j) = true ->
    match cap_sw (i t) with SwNone => True | SwStatus k _ => k <> j | SwAddr k _ => k <> j end
}.

(** Whenever software loads slot 0 or 1, the slot stays loaded until it is marked as
    filled, and this happens; the last thing that the DMA has written when it does is
    one whole frame in the slot's buffer. *)
Theorem C98_slot_served : forall n F lw aw dw align mem ra ns i X K E B b m words T0,
  streaming n F lw aw dw align mem ra ns i X K E B b m words T0 ->
  forall w c v, c < 2 -> c < ns -> T0 <= w -> B + 2 * (E + K) + 10 <= occurrences (fun t => cap_sys (i t)) T0 (w - T0) ->
  cap_sys (i w) = true -> cap_sw (i w) = SwStatus c v -> Z.odd v = true ->
  let a := word_address aw align (slot_address n F lw aw dw align mem ra ns i w c) in
  exists x z, w < x < z /\ (forall t, w < t < z -> Z.odd (slot_status n F lw aw dw align mem ra ns i t c) = true) /\
  slot_status n F lw aw dw align mem ra ns i z c = 2%Z /\
  forall M, let M' := after M (collect (c_write n F lw aw dw align mem ra (dma_init ns) i) x (z - x)) in
  exists f, (forall j, j < m -> M' ((a + Z.of_nat j) mod 2 ^ aw)%Z = (joined lw (words f j) mod 2 ^ dw)%Z) /\
  (forall q, (forall j, j < m -> q <> ((a + Z.of_nat j) mod 2 ^ aw)%Z) -> M' q = M q).
Proof.
  intros n F lw aw dw align mem ra ns i X K E B b m words T0 [N HM Haw NS HX H1 H2 H3 HD Hsys Hpix M1 HB HT SZ POL] w c v C2 C TW HW Q SW V a.
  assert (LO : forall s, Z.odd (sl_status s) = sl_loaded s) by (intros s; unfold sl_loaded; symmetry; apply Z.bit0_odd).
  assert (P2 : forall t j, c_sys i t = true -> sl_loaded (nth j (dm_slots (cap_dma (cap_run n F lw aw dw align mem ra (dma_init ns) i t))) slot0) = true -> untouched (cap_sw (i t)) j).
  { intros t j Q1 L. apply (POL t j Q1). unfold slot_status. rewrite LO. exact L. }
  assert (NL : sl_loaded (nth c (dm_slots (cap_dma (cap_run n F lw aw dw align mem ra (dma_init ns) i w))) slot0) = false).
  { destruct (sl_loaded _) eqn:L; [|reflexivity]. exfalso. specialize (P2 w c Q L). rewrite SW in P2. apply P2. reflexivity. }
  pose proof (lv_mem i K H1) as HM1. pose proof (lv_drain n F lw aw dw align mem ra (dma_init ns) i E H2) as HD1.
  pose proof (lv_sof n F lw aw dw align mem ra (dma_init ns) i N HM K E B X HX H1 H2 H3 HD b m words M1 HB T0 HT Hpix) as SOF.
  set (kp := c_kept n F lw aw dw align mem ra (dma_init ns) i) in *. set (tk := c_taken n F lw aw dw align mem ra (dma_init ns) i).
  assert (OLD : length (collect kp 0 T0) <= length (collect tk 0 w)).
  { apply (taken_by n F lw aw dw align mem ra (dma_init ns) i N HM K E HM1 HD1 (B + E + K + 5) T0 w TW).
    - apply (lv_backlog n F lw aw dw align mem ra (dma_init ns) i N HM K E B X HX H1 H2 H3); assumption.
    - change (c_sys i) with (fun t => cap_sys (i t)). lia. }
  destruct (turn_after_load n F lw aw dw align mem ra ns i N HM Haw NS K E HM1 HD1 Hsys SOF P2 w c v C2 C Q SW) as (x0 & X0 & G1 & G2 & G3).
  { rewrite Z.bit0_odd. exact V. }
  { exact NL. }
  destruct (G3 x0 ltac:(lia)) as [L0 A0].
  destruct (capture n F lw aw dw align mem ra (dma_init ns) i N HM K E HM1 HD1 Hsys) with (x0 := x0) (c := c) (m := m)
    as (x & y & z & XY & YZ & ST & CNT & LAST & AD & SS & WR & KEEP); try assumption.
  { intros t T Q1 L. apply P2; assumption. }
  { rewrite slots_count. exact C. }
  { intros t T. apply SZ. lia. }
  exists x0, (S z). split; [lia|]. split.
  { intros t T. unfold slot_status. rewrite LO. destruct (Nat.le_gt_cases t x0) as [L|L]; [apply G3; lia|]. rewrite KEEP by lia. exact L0. }
  split; [exact SS|]. intros M M'. unfold M'. rewrite WR.
  assert (AW : a = word_address aw align (sl_addr (dm_slot (cap_dma (cap_run n F lw aw dw align mem ra (dma_init ns) i x))))).
  { unfold a. rewrite AD, A0. reflexivity. }
  rewrite AW. apply (C79_frame_in_memory n F lw aw dw align mem ra (dma_init ns) i N HM Haw X b m words M1 HX HB T0 x y ltac:(lia) HT); try assumption.
  - intros t T. apply (lv_no_loss n F lw aw dw align mem ra (dma_init ns) i N HM K E B X HX H1 H2 H3 HD).
  - etransitivity; [exact OLD|]. unfold tk. replace x with (w + (x - w)) by lia. rewrite collect_app, app_length. lia.
  - apply SZ. lia.
Qed.
Print Assumptions C98_slot_served.

(** * Periodic runs *)
Fixpoint scan {St In : Type} (step : St -> In -> St) (u : nat -> In) (p : St -> nat -> bool) (s : St) (t k : nat) : bool :=
  match k with 0 => true | S k => p s t && scan step u p (step s (u t)) (S t) k end.
Lemma scan_sound : forall St In (step : St -> In -> St) u p s0 k t, scan step u p (at_ step s0 u t) t k = true ->
  forall d, d < k -> p (at_ step s0 u (t + d)) (t + d) = true.
Proof.
  intros St In step u p s0. induction k as [|k IH]; intros t H d D; [lia|]. cbn [scan] in H. apply andb_prop in H as [H1 H2]. destruct d as [|d].
  - rewrite Nat.add_0_r. exact H1.
  - replace (t + S d) with (S t + d) by lia. apply IH; [exact H2|lia].
Qed.
Lemma periodic : forall St In (step : St -> In -> St) s0 u a P, at_ step s0 u (a + P) = at_ step s0 u a -> (forall t, a <= t -> u (t + P) = u t) ->
  forall t, a <= t -> at_ step s0 u (t + P) = at_ step s0 u t.
Proof.
  intros St In step s0 u a P H U t T. induction T as [|t T IH]; [exact H|]. change (S t + P) with (S (t + P)). cbn [at_]. rewrite IH, U by exact T. reflexivity.
Qed.

(** Three slots.  Software loads slot 2 once, and loads slots 0 and 1 again each time
    they have been filled. *)
Definition ex_starve_in (t : nat) : cap_in :=
  {| cap_pix := Nat.eqb (t mod 4) 0; cap_sys := true; cap_pk := ex_cap_pk (t / 4); cap_mready := Nat.odd t;
     cap_wbusy := false; cap_size := 16;
     cap_sw := if Nat.eqb t 200 then SwStatus 2 1
               else if Nat.eqb (t mod 80) 18 then SwAddr 0 64 else if Nat.eqb (t mod 80) 20 then SwStatus 0 1
               else if Nat.eqb (t mod 80) 58 then SwAddr 1 128 else if Nat.eqb (t mod 80) 60 then SwStatus 1 1 else SwNone;
     cap_mp := 1; cap_mc := 0 |}%Z.
Definition ex_starve_run (ns t : nat) : cap_st := cap_run 4 2 32 8 64 3 (repeat fe_word0 16) 0 (dma_init ns) ex_starve_in t.
Definition ex_starve_ok (s : cap_st) (t : nat) : bool :=
  match cap_sw (ex_starve_in t) with
  | SwNone => true | SwStatus k _ => negb (Z.odd (sl_status (nth k (dm_slots (cap_dma s)) slot0)))
  | SwAddr k _ => negb (Z.odd (sl_status (nth k (dm_slots (cap_dma s)) slot0)))
  end && ((t <=? 200) || Z.eqb (sl_status (nth 2 (dm_slots (cap_dma s)) slot0)) 1).

Lemma ex_starve_input : forall t, 640 <= t -> ex_starve_in (t + 640) = ex_starve_in t.
Proof.
  intros t T. unfold ex_starve_in, ex_cap_pk. replace ((t + 640) mod 4) with (t mod 4) by (replace (t + 640) with (t + 160 * 4) by lia; rewrite Nat.mod_add by lia; reflexivity).
  replace ((t + 640) / 4) with (t / 4 + 160) by (replace (t + 640) with (t + 160 * 4) by lia; rewrite Nat.div_add by lia; reflexivity).
  replace ((t / 4 + 160) mod 10) with ((t / 4) mod 10) by (replace (t / 4 + 160) with (t / 4 + 16 * 10) by lia; rewrite Nat.mod_add by lia; reflexivity).
  replace ((t + 640) mod 80) with (t mod 80) by (replace (t + 640) with (t + 8 * 80) by lia; rewrite Nat.mod_add by lia; reflexivity).
  replace (Nat.odd (t + 640)) with (Nat.odd t) by (rewrite Nat.odd_add; change (Nat.odd 640) with false; rewrite xorb_false_r; reflexivity).
  destruct (Nat.eqb_spec t 200); [lia|]. destruct (Nat.eqb_spec (t + 640) 200); [lia|]. reflexivity.
Qed.
Lemma ex_starve_period : forall t, 640 <= t -> ex_starve_run 3 (t + 640) = ex_starve_run 3 t.
Proof. apply periodic; [|exact ex_starve_input]. vm_compute. reflexivity. Qed.
Lemma ex_starve_all : forall t, ex_starve_ok (ex_starve_run 3 t) t = true.
Proof.
  assert (B : forall t, t < 1280 -> ex_starve_ok (ex_starve_run 3 t) t = true).
  { intros t T. unfold ex_starve_run, cap_run.
    apply (scan_sound _ _ (cap_step 4 2 32 8 64 3) ex_starve_in ex_starve_ok {| cap_fe := fe_init 2 (repeat fe_word0 16) 0; cap_dma := dma_init 3 |} 1280 0); [|exact T].
    vm_compute. reflexivity. }
  intros t. induction t as [t IH] using lt_wf_ind. destruct (Nat.lt_ge_cases t 1280) as [L|L]; [apply B; exact L|].
  replace t with ((t - 640) + 640) by lia. rewrite ex_starve_period by lia. specialize (IH (t - 640) ltac:(lia)). unfold ex_starve_ok in *.
  rewrite ex_starve_input by lia. replace (t - 640 + 640 <=? 200) with (t - 640 <=? 200); [exact IH|].
  rewrite !(proj2 (Nat.leb_gt _ _)) by lia. reflexivity.
Qed.

Example ex_starve_streaming : streaming 4 2 32 8 64 3 (repeat fe_word0 16) 0 3 ex_starve_in ex_cap_pk 1 0 6 ex_b 2 ex_words 41.
Proof.
  constructor; try exact ex_live_clock; try exact ex_live_slow; try exact (proj1 ex_live_running); try exact (proj2 ex_live_running); try exact ex_cap_windows; try lia.
  - reflexivity.
  - exact ex_live_mem.
  - intros u t UT H. change (fun t => cap_sys (ex_starve_in t)) with (fun t => cap_sys (ex_live_in t)). rewrite ex_live_sys.
    destruct (Nat.le_gt_cases (t - u) 0) as [L|L]; [exact L|]. exfalso. specialize (H u ltac:(lia) eq_refl). discriminate.
  - apply Nat.ltb_lt. vm_compute. reflexivity.
  - vm_compute. reflexivity.
  - intros t _. vm_compute. reflexivity.
  - intros t j _ L. pose proof (ex_starve_all t) as A. unfold ex_starve_ok in A. apply andb_prop in A as [A _].
    unfold slot_status in L. fold (ex_starve_run 3 t) in L.
    destruct (cap_sw (ex_starve_in t)) as [|k v|k v]; [exact I| |]; intros ->; rewrite L in A; discriminate.
Qed.

(** With three slots the third one may starve: the statement of C98 does not extend
    to it. *)
Theorem C99_every_slot_served_refuted :
  ~ (forall n F lw aw dw align mem ra ns i X K E B b m words T0,
     streaming n F lw aw dw align mem ra ns i X K E B b m words T0 ->
     forall w c v, c < ns -> T0 <= w -> B + 2 * (E + K) + 10 <= occurrences (fun t => cap_sys (i t)) T0 (w - T0) ->
     cap_sys (i w) = true -> cap_sw (i w) = SwStatus c v -> Z.odd v = true ->
     exists z, w < z /\ slot_status n F lw aw dw align mem ra ns i z c = 2%Z).
Proof.
  intros H. destruct (H _ _ _ _ _ _ _ _ _ _ _ _ _ _ _ _ _ _ ex_starve_streaming 200 2 1%Z) as (z & Z1 & Z2); try lia; try reflexivity.
  - change (fun t => cap_sys (ex_starve_in t)) with (fun t => cap_sys (ex_live_in t)). rewrite ex_live_sys. lia.
  - pose proof (ex_starve_all z) as A. unfold ex_starve_ok in A. apply andb_prop in A as [_ A]. rewrite (proj2 (Nat.leb_gt _ _)) in A by exact Z1. cbn [orb] in A.
    unfold slot_status in Z2. fold (ex_starve_run 3 z) in Z2. rewrite Z2 in A. discriminate.
Qed.
(** What remains for any number of slots. *)
Theorem C99_every_slot_served_partial : forall n F lw aw dw align mem ra ns i X K E B b m words T0,
  streaming n F lw aw dw align mem ra ns i X K E B b m words T0 ->
  forall w c v, c < 2 -> c < ns -> T0 <= w -> B + 2 * (E + K) + 10 <= occurrences (fun t => cap_sys (i t)) T0 (w - T0) ->
  cap_sys (i w) = true -> cap_sw (i w) = SwStatus c v -> Z.odd v = true ->
  exists z, w < z /\ slot_status n F lw aw dw align mem ra ns i z c = 2%Z.
Proof.
  intros n F lw aw dw align mem ra ns i X K E B b m words T0 H w c v C2 C TW HW Q SW V.
  destruct (C98_slot_served n F lw aw dw align mem ra ns i X K E B b m words T0 H w c v C2 C TW HW Q SW V) as (x & z & A & _ & G & _).
  exists z. split; [lia|exact G].
Qed.
Print Assumptions C99_every_slot_served_refuted.
Print Assumptions C99_every_slot_served_partial.

(** The same run meets the hypotheses of C98 at every load of slots 0 and 1. *)
Example ex_served : forall f, exists x z, 80 * f + 100 < x < z /\ Z.odd (slot_status 4 2 32 8 64 3 (repeat fe_word0 16) 0 3 ex_starve_in (z - 1) 0) = true /\
  slot_status 4 2 32 8 64 3 (repeat fe_word0 16) 0 3 ex_starve_in z 0 = 2%Z.
Proof.
  intros f.
  assert (SW : cap_sw (ex_starve_in (80 * f + 100)) = SwStatus 0 1).
  { cbn [cap_sw ex_starve_in]. replace ((80 * f + 100) mod 80) with 20 by (apply Nat.mod_unique with (f + 1); lia).
    destruct (Nat.eqb_spec (80 * f + 100) 200); [lia|reflexivity]. }
  destruct (C98_slot_served _ _ _ _ _ _ _ _ _ _ _ _ _ _ _ _ _ _ ex_starve_streaming (80 * f + 100) 0 1%Z) as (x & z & XZ & L & G & _); try lia; try reflexivity; try exact SW.
  - change (fun t => cap_sys (ex_starve_in t)) with (fun t => cap_sys (ex_live_in t)). rewrite ex_live_sys. lia.
  - exists x, z. split; [exact XZ|]. split; [apply L; lia|exact G].
Qed.
