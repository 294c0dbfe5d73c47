(** Lemmas for C98: software that leaves loaded slots alone gets the first two slots
    filled again and again. *)
From Coq Require Import ZArith List Bool Lia Arith.
From Verif Require Import Hdl Trace CdcProofs AnalysisModel FrameProofs FrameProps InDmaModel InDmaProofs InDmaProps FifoModel FifoProofs FifoProps CaptureModel CaptureProofs
  CaptureRateProofs CaptureLiveProofs.
Import ListNotations.
Open Scope nat_scope.

Lemma lowest_zero : forall l k cur, 0 < length l -> sl_loaded (nth 0 l slot0) = true -> lowest l k cur = k.
Proof. intros [|s l] k cur L H; cbn in *; [lia|]. rewrite H. reflexivity. Qed.
Lemma lowest_one : forall l k cur, 1 < length l -> sl_loaded (nth 0 l slot0) = false -> sl_loaded (nth 1 l slot0) = true -> lowest l k cur = S k.
Proof. intros [|s [|r l]] k cur L H G; cbn in *; try lia. rewrite H, G. reflexivity. Qed.

Section Fair.
Variables (n : Z) (F : nat) (lw aw dw align : Z) (mem : list (bool * list Z)) (ra : Z) (ns : nat) (i : nat -> cap_in).
Let d0 := dma_init ns.
Hypothesis N : (1 <= n)%Z.
Hypothesis HM : Z.of_nat (length mem) = (2 ^ n)%Z.
Hypothesis Haw : (0 < aw)%Z.
Hypothesis NS : 1 <= ns.
Let st (t : nat) : cap_st := cap_run n F lw aw dw align mem ra d0 i t.
Let kp := c_kept n F lw aw dw align mem ra d0 i.
Let tk := c_taken n F lw aw dw align mem ra d0 i.
Let din := c_din n F lw aw dw align mem ra d0 i.
Let sys := c_sys i.
Let nk t := length (collect kp 0 t).
Let nt t := length (collect tk 0 t).
Variables (K E : nat).
Hypothesis Hmem : forall u t, u <= t -> (forall v, u <= v < t -> sys v = true -> cap_mready (i v) = false) ->
  occurrences sys u (t - u) <= K.
Hypothesis Hdrain : forall u t, u <= t -> (forall v, u <= v < t -> sys v = true -> dm_fsm (cap_dma (st v)) = EOF /\ cap_wbusy (i v) = true) ->
  occurrences sys u (t - u) <= E.
Hypothesis Hsys : forall u k, exists t, u <= t /\ k <= occurrences sys u (t - u).
Hypothesis Hsof : forall R, exists v R', R <= R' < nk v /\ fst (nth R' (collect kp 0 v) fe_word0) = true.
Let slot_of t j := nth j (dm_slots (cap_dma (st t))) slot0.
Hypothesis POL : forall t j, sys t = true -> sl_loaded (slot_of t j) = true -> untouched (cap_sw (i t)) j.

Lemma fr_S : forall t, cap_dma (st (S t)) = if sys t then dma_step aw dw align (cap_dma (st t)) (din t) else cap_dma (st t).
Proof. intros t. apply c_dma_step. Qed.
Lemma fr_len : forall t, length (dm_slots (cap_dma (st t))) = ns.
Proof. apply slots_count. Qed.
Lemma fr_cur : forall t, dm_cur (cap_dma (st t)) < ns.
Proof. apply cur_range. exact NS. Qed.
Lemma fr_slot : forall t, dm_slot (cap_dma (st t)) = slot_of t (dm_cur (cap_dma (st t))).
Proof. clear N. intros t. unfold dm_slot, slot_of. rewrite fr_len. pose proof (fr_cur t). f_equal. lia. Qed.

(** A loaded slot stays as it is unless it is the current one and the capture ends. *)
Lemma fr_keep : forall t j, j < ns -> sl_loaded (slot_of t j) = true ->
  (sys t = true -> dm_done (cap_dma (st t)) (din t) = true -> dm_cur (cap_dma (st t)) <> j) -> slot_of (S t) j = slot_of t j.
Proof.
  intros t j J L D. unfold slot_of. rewrite fr_S. destruct (sys t) eqn:Q; [|reflexivity].
  unfold dma_step; cbn [dm_slots]. rewrite slots_nth by (rewrite fr_len; exact J). rewrite Nat.add_0_l.
  change (dmi_sw (din t)) with (cap_sw (i t)). rewrite slot_untouched by (apply POL; assumption).
  destruct (dm_done (cap_dma (st t)) (din t)) eqn:DN; [|reflexivity].
  destruct (Nat.eqb_spec (dm_cur (cap_dma (st t))) j) as [G|G]; [exfalso; exact (D eq_refl eq_refl G)|reflexivity].
Qed.

(** During a capture the current slot is loaded; the count is in range. *)
Lemma fr_inv : forall t, (dm_fsm (cap_dma (st t)) <> WAIT_SOF -> dm_av (cap_dma (st t)) = true) /\ (0 <= dm_left (cap_dma (st t)) < 2 ^ aw)%Z.
Proof. clear N.
  assert (P : (0 < 2 ^ aw)%Z) by (apply Z.pow_pos_nonneg; lia).
  induction t as [|t [I1 I2]]; [split; [intros H; exfalso; apply H; reflexivity|cbn; lia]|].
  pose proof (fr_keep t (dm_cur (cap_dma (st t))) (fr_cur t)) as KP. rewrite fr_S. destruct (sys t) eqn:Q; [|split; assumption].
  assert (ST : st (S t) = st (S t)) by reflexivity. split.
  - intros H.
    assert (AV : dm_av (cap_dma (st t)) = true /\ dm_done (cap_dma (st t)) (din t) = false).
    { unfold dma_step in H; cbn [dm_fsm] in H. unfold dm_start, dm_done in *. destruct (dm_fsm (cap_dma (st t))) eqn:W.
      - destruct (dm_av (cap_dma (st t))); [split; reflexivity|exfalso; apply H; reflexivity].
      - split; [apply I1; discriminate|reflexivity].
      - split; [apply I1; discriminate|]. destruct (negb (dmi_wbusy (din t))); [exfalso; apply H; reflexivity|reflexivity]. }
    destruct AV as [AV DN]. unfold dm_av in AV. rewrite fr_slot in AV. specialize (KP AV ltac:(congruence)).
    assert (C : dm_cur (cap_dma (st (S t))) = dm_cur (cap_dma (st t))).
    { rewrite fr_S, Q. unfold dma_step; cbn [dm_cur]. unfold dm_av. rewrite fr_slot, AV, DN. reflexivity. }
    pose proof (fr_slot (S t)) as SL. rewrite C, KP in SL. rewrite fr_S, Q in SL. unfold dm_av. rewrite SL. exact AV.
  - unfold dma_step; cbn [dm_left]. destruct (dm_fsm (cap_dma (st t))).
    + apply Z.mod_pos_bound. exact P.
    + destruct (dm_write _ _ _); [apply Z.mod_pos_bound; exact P|exact I2].
    + destruct (dm_write _ _ _); [apply Z.mod_pos_bound; exact P|exact I2].
Qed.

(** Every transfer ends. *)
Lemma fr_nt_S : forall t, nt (S t) = nt t + match tk t with Some _ => 1 | None => 0 end.
Proof. intros t. unfold nt. cbn [collect Nat.add]. rewrite app_length. destruct (tk t); reflexivity. Qed.
Lemma fr_nt_mono : forall u v, u <= v -> nt u <= nt v.
Proof. intros u v H. induction H as [|v H IH]; [apply Nat.le_refl|]. rewrite fr_nt_S. etransitivity; [exact IH|]. apply Nat.le_add_r. Qed.
Lemma fr_tk : forall t, tk t = if sys t && dm_ready (cap_dma (st t)) (din t) then fe_frame (cap_fe (st t)) else None.
Proof. intros t. apply (tk_def n F lw aw dw align mem ra d0 i t). Qed.
Lemma fr_next : forall u, exists t, u <= t /\ tk t <> None /\ forall v, u <= v < t -> tk v = None.
Proof.
  intros u. destruct (Hsof (nt u)) as (v & R & (R1 & R2) & _).
  destruct (taken_at n F lw aw dw align mem ra d0 i N HM K E Hmem Hdrain Hsys (nt u) u v) as (t & UT & NT & TK); [apply Nat.le_refl|exact (Nat.le_lt_trans _ _ _ R1 R2)|].
  exists t. split; [exact UT|]. split; [exact TK|]. intros x X. change (nt t = nt u) in NT.
  pose proof (fr_nt_mono u x ltac:(lia)) as A. pose proof (fr_nt_mono (S x) t ltac:(lia)) as B. rewrite fr_nt_S in B. destruct (tk x); [lia|reflexivity].
Qed.
Lemma fr_write : forall t, dm_fsm (cap_dma (st t)) = TRANSFER -> sys t = true ->
  (tk t = None <-> dm_write dw (cap_dma (st t)) (din t) = None).
Proof.
  intros t H Q. rewrite fr_tk, Q. unfold dm_ready, dm_write. rewrite H. cbn [andb]. unfold din, c_din, cap_dma_in. fold (st t). cbn [dmi_valid dmi_ready].
  destruct (fe_frame (cap_fe (st t))), (cap_mready (i t)); cbn [andb]; split; intros G; congruence.
Qed.
Lemma fr_hold : forall u t, u <= t -> dm_fsm (cap_dma (st u)) = TRANSFER -> (forall v, u <= v < t -> tk v = None) ->
  dm_fsm (cap_dma (st t)) = TRANSFER /\ dm_left (cap_dma (st t)) = dm_left (cap_dma (st u)).
Proof.
  intros u t UT H. induction UT as [|t UT IH]; intros G; [split; [exact H|reflexivity]|].
  destruct IH as [I1 I2]; [intros; apply G; lia|]. rewrite fr_S. destruct (sys t) eqn:Q; [|split; assumption].
  pose proof (proj1 (fr_write t I1 Q) (G t ltac:(lia))) as W. unfold dma_step; cbn [dm_fsm dm_left]. rewrite I1, W. split; [reflexivity|exact I2].
Qed.
Lemma fr_transfer_ends : forall k u, dm_fsm (cap_dma (st u)) = TRANSFER -> Z.to_nat ((dm_left (cap_dma (st u)) - 1) mod 2 ^ aw) = k ->
  exists t, u <= t /\ dm_fsm (cap_dma (st t)) = EOF /\ forall v, u <= v < t -> dm_fsm (cap_dma (st v)) = TRANSFER.
Proof.
  assert (P : (0 < 2 ^ aw)%Z) by (apply Z.pow_pos_nonneg; lia).
  induction k as [|k IH]; intros u HT HK; destruct (fr_next u) as (y & UY & TK & NT); destruct (fr_hold u y UY HT NT) as [FY LY].
  all: assert (HO : forall v, u <= v <= y -> dm_fsm (cap_dma (st v)) = TRANSFER) by (intros v V; apply (fr_hold u v); [lia|exact HT|intros; apply NT; lia]).
  all: assert (Q : sys y = true) by (rewrite fr_tk in TK; destruct (sys y); [reflexivity|exfalso; exact (TK eq_refl)]).
  all: assert (W : exists p, dm_write dw (cap_dma (st y)) (din y) = Some p)
    by (destruct (dm_write dw (cap_dma (st y)) (din y)) as [p|] eqn:G; [exists p; reflexivity|exfalso; apply TK; apply fr_write; assumption]).
  all: destruct W as [p W]; destruct (fr_inv u) as [_ RG].
  all: pose proof (Z.mod_pos_bound (dm_left (cap_dma (st u)) - 1) (2 ^ aw) P) as MB.
  - assert (L1 : dm_left (cap_dma (st u)) = 1%Z).
    { destruct (Z.eq_dec (dm_left (cap_dma (st u))) 0) as [Z0|NZ].
      - rewrite Z0 in HK. replace (0 - 1)%Z with (-1)%Z in HK by lia. destruct (Z.eq_dec aw 0); [lia|].
        assert (2 ^ 1 <= 2 ^ aw)%Z by (apply Z.pow_le_mono_r; lia). rewrite <- (Z.mod_add (-1) 1 (2 ^ aw)) in HK by lia. rewrite Z.mod_small in HK by lia. lia.
      - rewrite Z.mod_small in HK by lia. lia. }
    exists (S y). split; [lia|]. split; [|intros v V; apply HO; lia].
    rewrite fr_S, Q. unfold dma_step; cbn [dm_fsm]. rewrite FY, W, LY, L1. reflexivity.
  - assert (L1 : dm_left (cap_dma (st u)) <> 1%Z) by (intros L; rewrite L in HK; rewrite Z.mod_0_l in HK by lia; discriminate).
    assert (FN : dm_fsm (cap_dma (st (S y))) = TRANSFER).
    { rewrite fr_S, Q. unfold dma_step; cbn [dm_fsm]. rewrite FY, W, LY. destruct (Z.eqb_spec (dm_left (cap_dma (st u))) 1); [contradiction|reflexivity]. }
    assert (LN : dm_left (cap_dma (st (S y))) = ((dm_left (cap_dma (st u)) - 1) mod 2 ^ aw)%Z).
    { rewrite fr_S, Q. unfold dma_step; cbn [dm_left]. rewrite FY, W, LY. reflexivity. }
    destruct (IH (S y) FN) as (t & T1 & T2 & T3).
    { rewrite LN. rewrite Z.mod_small by lia. lia. }
    exists t. split; [lia|]. split; [exact T2|]. intros v V. destruct (Nat.le_gt_cases v y); [apply HO; lia|apply T3; lia].
Qed.

(** Every capture of a loaded slot comes to its end. *)
Definition ends (t : nat) : bool := c_sys i t && dm_done (cap_dma (cap_run n F lw aw dw align mem ra (dma_init ns) i t)) (c_din n F lw aw dw align mem ra (dma_init ns) i t).
Lemma eof_ends : forall u, dm_fsm (cap_dma (st u)) = EOF -> exists t, u <= t /\ ends t = true.
Proof.
  intros u H. destruct (Hsys u (E + 1)) as (t & UT & O).
  destruct (first_in ends u (t - u)) as [G | (z & Z1 & Z2 & _)]; [|exists z; split; [lia|exact Z2]]. exfalso.
  assert (FE : forall v, u <= v < t -> dm_fsm (cap_dma (st v)) = EOF /\ (sys v = true -> cap_wbusy (i v) = true)).
  { intros v. assert (V : forall v, u <= v -> v < t -> dm_fsm (cap_dma (st v)) = EOF).
    { intros x X. induction X as [|x X IH]; intros L; [exact H|]. specialize (IH ltac:(lia)). specialize (G x ltac:(lia)). unfold ends in G.
      rewrite fr_S. change (c_sys i x) with (sys x) in G. destruct (sys x); [|exact IH]. cbn [andb] in G. fold (st x) in G. fold d0 in G. fold (st x) in G. fold din in G.
      unfold dma_step; cbn [dm_fsm]. rewrite IH, G. reflexivity. }
    intros B. specialize (V v ltac:(lia) ltac:(lia)). split; [exact V|]. intros Q. specialize (G v ltac:(lia)). unfold ends in G. change (c_sys i v) with (sys v) in G.
    rewrite Q in G. cbn [andb] in G. fold d0 in G. fold (st v) in G. fold din in G. unfold dm_done in G. rewrite V in G. change (dmi_wbusy (din v)) with (cap_wbusy (i v)) in G.
    destruct (cap_wbusy (i v)); [reflexivity|discriminate]. }
  assert (L : occurrences sys u (t - u) <= E); [|lia]. apply Hdrain; [exact UT|]. intros v V Q. destruct (FE v V) as [A B]. split; [exact A|exact (B Q)].
Qed.
Lemma loaded_ends : forall u, dm_av (cap_dma (st u)) = true -> exists t, u <= t /\ ends t = true.
Proof.
  intros u AV. destruct (dm_fsm (cap_dma (st u))) eqn:W.
  - destruct (start_exists n F lw aw dw align mem ra d0 i N HM K E Hmem Hdrain Hsys Hsof u (dm_cur (cap_dma (st u)))) as (x & UX & SX & NX); try reflexivity.
    + intros t T Q L. apply POL; assumption.
    + exact W.
    + fold (st u). rewrite fr_len. apply fr_cur.
    + unfold dm_av in AV. rewrite fr_slot in AV. exact AV.
    + unfold c_starts in SX. apply andb_prop in SX as [Q SX]. fold (st x) in SX. fold din in SX.
      assert (FT : dm_fsm (cap_dma (st (S x))) = TRANSFER).
      { rewrite fr_S. change (sys x) with (c_sys i x). rewrite Q. unfold dma_step; cbn [dm_fsm]. rewrite SX. unfold dm_start in SX. destruct (dm_fsm (cap_dma (st x))); [reflexivity|discriminate|discriminate]. }
      destruct (fr_transfer_ends _ (S x) FT eq_refl) as (t & T1 & T2 & _). destruct (eof_ends t T2) as (z & Z1 & Z2). exists z. split; [lia|exact Z2].
  - destruct (fr_transfer_ends _ u W eq_refl) as (t & T1 & T2 & _). destruct (eof_ends t T2) as (z & Z1 & Z2). exists z. split; [lia|exact Z2].
  - apply eof_ends. exact W.
Qed.

(** The next instant at which the current slot may change. *)
Lemma change : forall u c, c < ns -> sl_loaded (slot_of u c) = true -> dm_cur (cap_dma (st u)) <> c ->
  let e := dm_cur (cap_dma (st u)) in
  exists t, u <= t /\ slot_of t c = slot_of u c /\ slot_of (S t) c = slot_of u c /\ dm_cur (cap_dma (st (S t))) = lowest (dm_slots (cap_dma (st t))) 0 e /\
  dm_fsm (cap_dma (st (S t))) = WAIT_SOF /\ (forall v, u <= v <= t -> slot_of v c = slot_of u c) /\
  (sl_loaded (slot_of u e) = false -> sl_loaded (slot_of t e) = false) /\
  (sl_loaded (slot_of t e) = false \/ sl_loaded (slot_of (S t) e) = false).
Proof.
  intros u c C L NC e. pose proof (fr_cur u) as ER. fold e in ER.
  destruct (dm_av (cap_dma (st u))) eqn:AV.
  - destruct (loaded_ends u AV) as (t1 & U1 & E1). destruct (first_in ends u (S t1 - u)) as [G | (t & T1 & ET & NT)].
    { rewrite G in E1 by lia. discriminate. }
    assert (H : forall v, u <= v -> v <= t -> dm_cur (cap_dma (st v)) = e /\ slot_of v e = slot_of u e /\ slot_of v c = slot_of u c).
    { intros v UV. induction UV as [|v UV IH]; intros VT; [repeat split|]. destruct IH as (I1 & I2 & I3); [lia|].
      assert (ND : sys v = true -> dm_done (cap_dma (st v)) (din v) = false).
      { intros Q. specialize (NT v ltac:(lia)). unfold ends in NT. change (c_sys i v) with (sys v) in NT. rewrite Q in NT. exact NT. }
      assert (LE : sl_loaded (slot_of v e) = true) by (rewrite I2; unfold dm_av in AV; rewrite fr_slot in AV; exact AV).
      split; [|split].
      - rewrite fr_S. destruct (sys v) eqn:Q; [|exact I1]. unfold dma_step; cbn [dm_cur]. rewrite (ND eq_refl). unfold dm_av. rewrite fr_slot, I1, LE. reflexivity.
      - rewrite <- I2. apply fr_keep; [exact ER|exact LE|]. intros Q D. rewrite (ND Q) in D. discriminate.
      - rewrite <- I3. apply fr_keep; [exact C|rewrite I3; exact L|]. intros Q D. rewrite (ND Q) in D. discriminate. }
    destruct (H t ltac:(lia) ltac:(lia)) as (H1 & H2 & H3). unfold ends in ET. apply andb_prop in ET as [Q DN]. change (c_sys i t) with (sys t) in Q.
    change (dm_done (cap_dma (st t)) (din t) = true) in DN.
    assert (LE : sl_loaded (slot_of t e) = true) by (rewrite H2; unfold dm_av in AV; rewrite fr_slot in AV; exact AV).
    exists t. split; [lia|]. split; [exact H3|]. split; [rewrite <- H3; apply fr_keep; [exact C|rewrite H3; exact L|intros _ _; rewrite H1; exact NC]|].
    split; [rewrite fr_S, Q; unfold dma_step; cbn [dm_cur]; rewrite DN, orb_true_r, H1; reflexivity|].
    split; [rewrite fr_S, Q; unfold dma_step; cbn [dm_fsm]; rewrite DN; unfold dm_done in DN; destruct (dm_fsm (cap_dma (st t))); [discriminate|discriminate|reflexivity]|].
    split; [intros v V; apply (H v); lia|]. split; [intros G; unfold dm_av in AV; rewrite fr_slot in AV; fold e in AV; congruence|].
    right. unfold slot_of. rewrite fr_S, Q. unfold dma_step; cbn [dm_slots]. rewrite slots_nth by (rewrite fr_len; exact ER).
    rewrite Nat.add_0_l, DN, H1, Nat.eqb_refl. cbn [andb]. change (dmi_sw (din t)) with (cap_sw (i t)). rewrite slot_untouched by (apply POL; assumption). reflexivity.
  - assert (LE : sl_loaded (slot_of u e) = false) by (unfold dm_av in AV; rewrite fr_slot in AV; exact AV).
    assert (FW : dm_fsm (cap_dma (st u)) = WAIT_SOF).
    { destruct (fr_inv u) as [I _]. destruct (dm_fsm (cap_dma (st u))); [reflexivity| |]; rewrite I in AV by discriminate; discriminate. }
    destruct (Hsys u 1) as (t1 & T1 & O1). destruct (first_in sys u (t1 - u)) as [G | (t & T & Q & NT)].
    { rewrite occ_zero in O1; [lia|exact G]. }
    assert (H : forall v, u <= v -> v <= t -> cap_dma (st v) = cap_dma (st u)).
    { intros v UV. induction UV as [|v UV IH]; intros VT; [reflexivity|]. rewrite fr_S, NT by lia. apply IH. lia. }
    assert (HS : forall v j, u <= v <= t -> slot_of v j = slot_of u j) by (intros v j V; unfold slot_of; rewrite (H v) by lia; reflexivity).
    pose proof (H t ltac:(lia) ltac:(lia)) as HT.
    assert (DN : dm_done (cap_dma (st t)) (din t) = false) by (unfold dm_done; rewrite HT, FW; reflexivity).
    exists t. split; [lia|]. split; [apply HS; lia|]. split; [rewrite <- (HS t c) by lia; apply fr_keep; [exact C|rewrite HS by lia; exact L|intros _ D; rewrite DN in D; discriminate]|].
    split; [rewrite fr_S, Q; unfold dma_step; cbn [dm_cur]; unfold dm_av; rewrite fr_slot; rewrite HT at 1; fold e; rewrite HS by lia; rewrite LE; rewrite HT; reflexivity|].
    split; [rewrite fr_S, Q; unfold dma_step; cbn [dm_fsm]; unfold dm_start; rewrite HT, FW, AV; reflexivity|].
    split; [intros v V; apply HS; exact V|]. split; [intros _; rewrite HS by lia; exact LE|]. left. rewrite HS by lia. exact LE.
Qed.

(** The first two slots get their turn. *)
Lemma turn : forall u c, c < 2 -> c < ns -> sl_loaded (slot_of u c) = true -> dm_cur (cap_dma (st u)) <> c ->
  exists t, u < t /\ dm_cur (cap_dma (st t)) = c /\ dm_fsm (cap_dma (st t)) = WAIT_SOF /\ forall v, u <= v <= t -> slot_of v c = slot_of u c.
Proof.
  intros u c C2 C L NC.
  assert (Z1 : forall u, 1 < ns -> sl_loaded (slot_of u 1) = true -> dm_cur (cap_dma (st u)) = 0 ->
    exists t, u < t /\ dm_cur (cap_dma (st t)) = 1 /\ dm_fsm (cap_dma (st t)) = WAIT_SOF /\ forall v, u <= v <= t -> slot_of v 1 = slot_of u 1).
  { assert (Z2 : forall u, 1 < ns -> sl_loaded (slot_of u 1) = true -> dm_cur (cap_dma (st u)) = 0 -> sl_loaded (slot_of u 0) = false ->
      exists t, u < t /\ dm_cur (cap_dma (st t)) = 1 /\ dm_fsm (cap_dma (st t)) = WAIT_SOF /\ forall v, u <= v <= t -> slot_of v 1 = slot_of u 1).
    { clear u c C2 C L NC. intros u C L C0 L0. destruct (change u 1 C L ltac:(lia)) as (t & UT & A1 & A2 & A3 & A4 & A5 & A6 & A7). rewrite C0 in *.
      exists (S t). split; [lia|]. split; [rewrite A3; apply lowest_one; [rewrite fr_len; exact C|exact (A6 L0)|fold (slot_of t 1); rewrite A1; exact L]|].
      split; [exact A4|]. intros v V. destruct (Nat.eq_dec v (S t)) as [->|]; [exact A2|apply A5; lia]. }
    clear u c C2 C L NC. intros u C L C0. destruct (change u 1 C L ltac:(lia)) as (t & UT & A1 & A2 & A3 & A4 & A5 & A6 & A7). rewrite C0 in *.
    assert (V1 : forall v, u <= v <= S t -> slot_of v 1 = slot_of u 1) by (intros v V; destruct (Nat.eq_dec v (S t)) as [->|]; [exact A2|apply A5; lia]).
    destruct (sl_loaded (slot_of t 0)) eqn:L0.
    - destruct A7 as [A7|A7]; [discriminate|].
      assert (C0' : dm_cur (cap_dma (st (S t))) = 0) by (rewrite A3; apply lowest_zero; [rewrite fr_len; lia|exact L0]).
      destruct (Z2 (S t) C ltac:(rewrite A2; exact L) C0' A7) as (z & B1 & B2 & B3 & B4). exists z. split; [lia|]. split; [exact B2|]. split; [exact B3|].
      intros v V. destruct (Nat.le_gt_cases v (S t)); [apply V1; lia|]. rewrite B4 by lia. exact A2.
    - exists (S t). split; [lia|]. split; [rewrite A3; apply lowest_one; [rewrite fr_len; exact C|exact L0|fold (slot_of t 1); rewrite A1; exact L]|].
      split; [exact A4|exact V1]. }
  destruct (change u c C L NC) as (t & UT & A1 & A2 & A3 & A4 & A5 & A6 & A7).
  assert (V1 : forall v, u <= v <= S t -> slot_of v c = slot_of u c) by (intros v V; destruct (Nat.eq_dec v (S t)) as [->|]; [exact A2|apply A5; lia]).
  destruct c as [|[|c]]; [| |lia].
  - exists (S t). split; [lia|]. split; [rewrite A3; apply lowest_zero; [rewrite fr_len; exact C|fold (slot_of t 0); rewrite A1; exact L]|]. split; [exact A4|exact V1].
  - destruct (sl_loaded (slot_of t 0)) eqn:L0.
    + assert (C0' : dm_cur (cap_dma (st (S t))) = 0) by (rewrite A3; apply lowest_zero; [rewrite fr_len; lia|exact L0]).
      destruct (Z1 (S t) C ltac:(rewrite A2; exact L) C0') as (z & B1 & B2 & B3 & B4). exists z. split; [lia|]. split; [exact B2|]. split; [exact B3|].
      intros v V. destruct (Nat.le_gt_cases v (S t)); [apply V1; lia|]. rewrite B4 by lia. exact A2.
    + exists (S t). split; [lia|]. split; [rewrite A3; apply lowest_one; [rewrite fr_len; exact C|exact L0|fold (slot_of t 1); rewrite A1; exact L]|].
      split; [exact A4|exact V1].
Qed.

(** After a load of one of the first two slots: it becomes the current slot of an idle DMA. *)
Lemma turn_after_load : forall w c v, c < 2 -> c < ns -> sys w = true -> cap_sw (i w) = SwStatus c v -> Z.testbit v 0 = true ->
  sl_loaded (slot_of w c) = false ->
  exists t, w < t /\ dm_cur (cap_dma (st t)) = c /\ dm_fsm (cap_dma (st t)) = WAIT_SOF /\
  forall x, w < x <= t -> sl_loaded (slot_of x c) = true /\ sl_addr (slot_of x c) = sl_addr (slot_of w c).
Proof.
  intros w c v C2 C Q SW V L.
  assert (L1 : sl_loaded (slot_of (S w) c) = true /\ sl_addr (slot_of (S w) c) = sl_addr (slot_of w c)).
  { unfold slot_of. rewrite fr_S, Q. unfold dma_step; cbn [dm_slots]. rewrite slots_nth by (rewrite fr_len; exact C). rewrite Nat.add_0_l.
    change (dmi_sw (din w)) with (cap_sw (i w)). rewrite SW. unfold slot_step. rewrite Nat.eqb_refl. cbn [sl_addr]. split.
    - unfold sl_loaded; cbn [sl_status]. unfold trunc. change 2%Z with (2 ^ 1)%Z at 1. rewrite Z.mod_pow2_bits_low by lia. exact V.
    - destruct (dm_done (cap_dma (st w)) (din w)) eqn:DN; cbn [andb]; [|reflexivity].
      destruct (Nat.eqb_spec (dm_cur (cap_dma (st w))) c) as [G|G]; [|reflexivity]. exfalso.
      destruct (fr_inv w) as [I _]. unfold dm_done in DN. destruct (dm_fsm (cap_dma (st w))); try discriminate.
      specialize (I ltac:(discriminate)). unfold dm_av in I. rewrite fr_slot, G, L in I. discriminate. }
  destruct (Nat.eq_dec (dm_cur (cap_dma (st (S w)))) c) as [G|G].
  - exists (S w). split; [lia|]. split; [exact G|]. split; [|intros x X; replace x with (S w) by lia; exact L1].
    destruct (dm_fsm (cap_dma (st (S w)))) eqn:FS; [reflexivity| |]; exfalso.
    + rewrite fr_S, Q in FS. unfold dma_step in FS; cbn [dm_fsm] in FS.
      (* the FSM was busy at w: then cur at w was loaded and is kept unless the capture ended *)
      assert (NC : dm_cur (cap_dma (st w)) = c -> False).
      { intros H. destruct (fr_inv w) as [I _]. unfold dm_start in FS. destruct (dm_fsm (cap_dma (st w))); try (specialize (I ltac:(discriminate)));
          unfold dm_av in *; rewrite fr_slot, H, L in *; cbn [andb] in *; discriminate. }
      rewrite fr_S, Q in G. unfold dma_step in G; cbn [dm_cur] in G.
      destruct (negb (dm_av (cap_dma (st w))) || dm_done (cap_dma (st w)) (din w)) eqn:CH; [|exact (NC G)].
      unfold dm_done, dm_start in *. destruct (fr_inv w) as [I _]. destruct (dm_fsm (cap_dma (st w))).
      * destruct (dm_av (cap_dma (st w))); [discriminate CH|discriminate FS].
      * rewrite (I ltac:(discriminate)) in CH. discriminate CH.
      * rewrite (I ltac:(discriminate)) in CH. cbn [negb orb] in CH. rewrite CH in FS. discriminate FS.
    + rewrite fr_S, Q in FS. unfold dma_step in FS; cbn [dm_fsm] in FS.
      assert (NC : dm_cur (cap_dma (st w)) = c -> False).
      { intros H. destruct (fr_inv w) as [I _]. unfold dm_start in FS. destruct (dm_fsm (cap_dma (st w))); try (specialize (I ltac:(discriminate)));
          unfold dm_av in *; rewrite fr_slot, H, L in *; cbn [andb] in *; discriminate. }
      rewrite fr_S, Q in G. unfold dma_step in G; cbn [dm_cur] in G.
      destruct (negb (dm_av (cap_dma (st w))) || dm_done (cap_dma (st w)) (din w)) eqn:CH; [|exact (NC G)].
      unfold dm_done, dm_start in *. destruct (fr_inv w) as [I _]. destruct (dm_fsm (cap_dma (st w))).
      * destruct (dm_av (cap_dma (st w))); [discriminate CH|discriminate FS].
      * rewrite (I ltac:(discriminate)) in CH. discriminate CH.
      * rewrite (I ltac:(discriminate)) in CH. cbn [negb orb] in CH. rewrite CH in FS. discriminate FS.
  - destruct (turn (S w) c C2 C (proj1 L1) G) as (t & T1 & T2 & T3 & T4). exists t. split; [lia|]. split; [exact T2|]. split; [exact T3|].
    intros x X. rewrite T4 by lia. exact L1.
Qed.
End Fair.
