(** C154: with frames arriving, every loaded slot is filled unless software keeps on loading slots with lower numbers for ever. *)
From Coq Require Import ZArith List Bool Lia Arith.
From Verif Require Import Hdl Trace CdcProofs AnalysisModel FrameProofs FrameProps InDmaModel InDmaProofs InDmaProps FifoModel FifoProofs FifoProps
  CaptureModel CaptureProofs CaptureProps CaptureRateProofs CaptureLiveProofs CaptureLiveProps FairProofs FairProps PermitProps BypassProps.
Import ListNotations.
Open Scope nat_scope.

Lemma lowest_is : forall l k cur d, d < length l -> sl_loaded (nth d l slot0) = true ->
  exists e, lowest l k cur = k + e /\ e < length l /\ sl_loaded (nth e l slot0) = true.
Proof.
  induction l as [|s l IH]; intros k cur d D L; cbn [length] in D; [lia|]. cbn [lowest length]. destruct (sl_loaded s) eqn:Q.
  - exists 0. split; [lia|]. split; [lia|exact Q].
  - destruct d as [|d]; [cbn [nth] in L; congruence|]. destruct (IH (S k) cur d ltac:(lia) L) as (e & E1 & E2 & E3). exists (S e). split; [lia|]. split; [lia|exact E3].
Qed.

Section Served.
Variables (n : Z) (F : nat) (lw aw dw align : Z) (mem : list (bool * list Z)) (ra : Z) (ns : nat) (i : nat -> cap_in).
Let d0 := dma_init ns.
Hypothesis N : (1 <= n)%Z.
Hypothesis HM : Z.of_nat (length mem) = (2 ^ n)%Z.
Hypothesis Haw : (0 < aw)%Z.
Hypothesis NS : 1 <= ns.
Let st (t : nat) : cap_st := cap_run n F lw aw dw align mem ra d0 i t.
Let dma t := cap_dma (st t).
Let kp := c_kept n F lw aw dw align mem ra d0 i.
Let din := c_din n F lw aw dw align mem ra d0 i.
Let sys := c_sys i.
Variables (K E : nat).
Hypothesis Hmem : forall u t, u <= t -> (forall v, u <= v < t -> sys v = true -> cap_mready (i v) = false) ->
  occurrences sys u (t - u) <= K.
Hypothesis Hdrain : forall u t, u <= t -> (forall v, u <= v < t -> sys v = true -> dm_fsm (cap_dma (st v)) = EOF /\ cap_wbusy (i v) = true) ->
  occurrences sys u (t - u) <= E.
Hypothesis Hsys : forall u k, exists t, u <= t /\ k <= occurrences sys u (t - u).
Hypothesis Hsof : forall R, exists v R', R <= R' < length (collect kp 0 v) /\ fst (nth R' (collect kp 0 v) fe_word0) = true.
Let slot_of t j := nth j (dm_slots (dma t)) slot0.
Hypothesis POL : forall t j, sys t = true -> sl_loaded (slot_of t j) = true -> CaptureLiveProofs.untouched (cap_sw (i t)) j.
Let ends := FairProofs.ends n F lw aw dw align mem ra ns i.

Lemma sv_S : forall t, dma (S t) = if sys t then dma_step aw dw align (dma t) (din t) else dma t.
Proof. intros t. apply (fr_S n F lw aw dw align mem ra ns i t). Qed.
Lemma sv_len : forall t, length (dm_slots (dma t)) = ns.
Proof. intros t. apply (fr_len n F lw aw dw align mem ra ns i t). Qed.
Lemma sv_cur : forall t, dm_cur (dma t) < ns.
Proof. intros t. apply (fr_cur n F lw aw dw align mem ra ns i NS t). Qed.
Lemma sv_av : forall t, dm_av (dma t) = sl_loaded (slot_of t (dm_cur (dma t))).
Proof. intros t. unfold dm_av. f_equal. apply (fr_slot n F lw aw dw align mem ra ns i NS t). Qed.
Lemma sv_ends : forall t, ends t = sys t && dm_done (dma t) (din t).
Proof. reflexivity. Qed.
Lemma sv_keep : forall t j, j < ns -> sl_loaded (slot_of t j) = true -> ends t && Nat.eqb (dm_cur (dma t)) j = false -> slot_of (S t) j = slot_of t j.
Proof.
  intros t j J L H. apply (fr_keep n F lw aw dw align mem ra ns i POL t j J L). intros Q D C. rewrite sv_ends in H. change (c_sys i t) with (sys t) in Q.
  change (dm_done (dma t) (din t) = true) in D. change (dm_cur (dma t) = j) in C. rewrite Q, D, C, Nat.eqb_refl in H. discriminate.
Qed.
Lemma sv_filled : forall t j, j < ns -> sl_loaded (slot_of t j) = true -> ends t && Nat.eqb (dm_cur (dma t)) j = true -> sl_status (slot_of (S t) j) = 2%Z.
Proof.
  intros t j J L H. rewrite sv_ends in H. apply andb_prop in H as [H C]. apply andb_prop in H as [Q D]. unfold slot_of. rewrite sv_S, Q. unfold dma_step; cbn [dm_slots].
  rewrite slots_nth by (rewrite sv_len; exact J). rewrite Nat.add_0_l, D, C. change (dmi_sw (din t)) with (cap_sw (i t)). rewrite slot_untouched by (apply POL; assumption). reflexivity.
Qed.
(** While slot [d] is loaded, a capture ends. *)
Lemma sv_next : forall u d, d < ns -> sl_loaded (slot_of u d) = true -> exists t, u <= t /\ ends t = true.
Proof.
  intros u d DN L.
  assert (EN : forall v, dm_av (dma v) = true -> exists t, v <= t /\ ends t = true) by (apply (loaded_ends n F lw aw dw align mem ra ns i N HM Haw NS K E Hmem Hdrain Hsys Hsof POL)).
  destruct (dm_av (dma u)) eqn:AV; [apply EN; exact AV|].
  assert (W : dm_fsm (dma u) = WAIT_SOF).
  { pose proof (proj1 (fr_inv n F lw aw dw align mem ra ns i Haw NS POL u)) as I. change (dm_fsm (dma u) <> WAIT_SOF -> dm_av (dma u) = true) in I.
    destruct (dm_fsm (dma u)); [reflexivity| |]; rewrite I in AV by discriminate; discriminate. }
  destruct (Hsys u 1) as (t & UT & O). destruct (first_in sys u (t - u)) as [G | (w & W1 & W2 & W3)].
  { exfalso. assert (O0 : occurrences sys u (t - u) = 0); [|lia]. clear O. assert (Q : forall k, k <= t - u -> occurrences sys u k = 0); [|apply Q; lia].
    induction k as [|k IH]; intros KK; [reflexivity|]. replace (S k) with (k + 1) by lia. rewrite occ_app, IH by lia. cbn [occurrences]. rewrite Nat.add_0_r, G by lia. reflexivity. }
  assert (SAME : forall v, u <= v -> v <= w -> dma v = dma u).
  { intros v UV. induction UV as [|v UV IH]; intros VW; [reflexivity|]. rewrite sv_S, W3 by lia. apply IH. lia. }
  pose proof (SAME w ltac:(lia) ltac:(lia)) as SW.
  assert (DN0 : dm_done (dma w) (din w) = false) by (unfold dm_done; rewrite SW, W; reflexivity).
  destruct (lowest_is (dm_slots (dma u)) 0 (dm_cur (dma u)) d) as (e & E1 & E2 & E3); [rewrite sv_len; exact DN|exact L|].
  assert (C : dm_cur (dma (S w)) = e).
  { rewrite sv_S, W2. unfold dma_step; cbn [dm_cur]. rewrite SW, AV. cbn [negb orb]. exact E1. }
  destruct (EN (S w)) as (z & Z1 & Z2).
  { rewrite sv_av, C. rewrite sv_keep; [unfold slot_of; rewrite SW; exact E3|rewrite <- (sv_len u); exact E2|unfold slot_of; rewrite SW; exact E3|].
    rewrite sv_ends, DN0, andb_false_r. reflexivity. }
  exists z. split; [lia|exact Z2].
Qed.
Lemma sv_count : forall u d, d < ns -> forall k, (forall t, u <= t <= u + k -> sl_loaded (slot_of t d) = true) ->
  occurrences ends u k + held (firstn d (dm_slots (dma (u + k)))) <=
  held (firstn d (dm_slots (dma u))) + occurrences (fun t => sys t && PermitProps.loads d (cap_sw (i t))) u k + (if dm_cur (dma (u + k)) <=? d then 1 else 0).
Proof.
  intros u d DN. induction k as [|k IH]; intros H.
  { rewrite Nat.add_0_r. cbn [occurrences]. lia. }
  specialize (IH ltac:(intros t T; apply H; lia)). replace (S k) with (k + 1) by lia. rewrite !occ_app. cbn [occurrences]. rewrite !Nat.add_0_r.
  set (C := occurrences ends u k) in *. set (L := occurrences (fun t => sys t && PermitProps.loads d (cap_sw (i t))) u k) in *.
  set (t := u + k) in *. replace (u + (k + 1)) with (S t) by lia.
  pose proof (H t ltac:(lia)) as LT. pose proof (H (S t) ltac:(lia)) as LS. pose proof (sv_len t) as LEN. rewrite sv_ends, sv_S.
  destruct (sys t) eqn:Q; cbn [andb]; [|lia].
  set (l := firstn d (dm_slots (dma t))) in *. assert (LL : length l = d) by (unfold l; rewrite firstn_length, LEN; lia).
  assert (X : firstn d (dm_slots (dma_step aw dw align (dma t) (din t))) = slots_step aw align 0 l (dm_cur (dma t)) (dm_done (dma t) (din t)) (dm_addr (dma t)) (cap_sw (i t))) by apply firstn_step.
  rewrite X. clear X.
  pose proof (sl_step aw align l 0 (dm_cur (dma t)) (dm_done (dma t) (din t)) (dm_addr (dma t)) (cap_sw (i t))) as S1.
  pose proof (sl_cur aw align l 0 (dm_cur (dma t)) (dm_done (dma t) (din t)) (dm_addr (dma t)) (cap_sw (i t))) as S2.
  pose proof (load_sum l 0 (dm_cur (dma t)) (cap_sw (i t))) as S3.
  assert (LD : match cap_sw (i t) with SwStatus j v => b2n ((0 <=? j) && (j <? 0 + length l) && Z.odd v) | _ => 0 end = (if PermitProps.loads d (cap_sw (i t)) then 1 else 0)).
  { unfold PermitProps.loads. rewrite LL. destruct (cap_sw (i t)); reflexivity. }
  rewrite LD in S3. set (l' := slots_step aw align 0 l (dm_cur (dma t)) (dm_done (dma t) (din t)) (dm_addr (dma t)) (cap_sw (i t))) in *.
  assert (LW : lowest (dm_slots (dma t)) 0 (dm_cur (dma t)) <= d) by (apply (lowest_le _ 0); [rewrite LEN; exact DN|exact LT]).
  assert (CUR : dm_cur (dma_step aw dw align (dma t) (din t)) = if negb (dm_av (dma t)) || dm_done (dma t) (din t) then lowest (dm_slots (dma t)) 0 (dm_cur (dma t)) else dm_cur (dma t)) by reflexivity.
  destruct (dm_done (dma t) (din t)) eqn:D.
  - rewrite orb_true_r in CUR. rewrite CUR, (proj2 (Nat.leb_le _ _) LW).
    destruct (Nat.leb_spec (dm_cur (dma t)) d) as [G|G].
    + assert (AV : dm_av (dma t) = true).
      { apply (proj1 (fr_inv n F lw aw dw align mem ra ns i Haw NS POL t)). change (dm_fsm (dma t) <> WAIT_SOF). unfold dm_done in D. destruct (dm_fsm (dma t)); discriminate. }
      assert (G2 : dm_cur (dma t) < d).
      { destruct (Nat.eq_dec (dm_cur (dma t)) d) as [G3|]; [exfalso|lia].
        pose proof (sv_filled t d DN LT) as FL. rewrite sv_ends, Q, D, G3, Nat.eqb_refl in FL. specialize (FL eq_refl). unfold sl_loaded in LS. rewrite FL in LS. discriminate. }
      assert (HA : held_at 0 l (dm_cur (dma t)) = 1).
      { rewrite held_nth by (rewrite LL; lia). rewrite Nat.sub_0_r. unfold l. rewrite nth_firstn_lt by exact G2. rewrite sv_av in AV. unfold slot_of in AV. rewrite AV. reflexivity. }
      lia.
    + assert (HA : held_at 0 l (dm_cur (dma t)) = 0).
      { clear - LL G. assert (Q : forall l k c, k + length l <= c -> held_at k l c = 0).
        { induction l0 as [|s l0 IH]; intros kk c KK; [reflexivity|]. cbn [held_at length] in *. destruct (Nat.eqb_spec c kk); [lia|]. apply IH. lia. }
        apply Q. lia. }
      lia.
  - rewrite orb_false_r in CUR. assert (HL : held l' <= held l + (if PermitProps.loads d (cap_sw (i t)) then 1 else 0)) by lia.
    destruct (Nat.leb_spec (dm_cur (dma t)) d) as [G|G]; destruct (Nat.leb_spec (dm_cur (dma_step aw dw align (dma t) (din t))) d) as [G2|G2]; try lia.
    exfalso. destruct (dm_av (dma t)); cbn [negb] in CUR; lia.
Qed.
(** Either the slot has been filled or [k] captures have ended. *)
Lemma sv_either : forall u d, d < ns -> sl_loaded (slot_of u d) = true -> forall k,
  (exists z, u < z /\ (forall t, u <= t < z -> sl_loaded (slot_of t d) = true) /\ sl_status (slot_of z d) = 2%Z) \/
  (exists m, (forall t, u <= t <= u + m -> sl_loaded (slot_of t d) = true) /\ k <= occurrences ends u m).
Proof.
  intros u d DN LU. induction k as [|k [IH|(m & M1 & M2)]]; [right; exists 0; split; [intros t T; replace t with u by lia; exact LU|apply Nat.le_0_l]|left; exact IH|].
  destruct (sv_next (u + m) d DN (M1 (u + m) ltac:(lia))) as (t & UT & ET).
  assert (KP : forall b, u + m <= b -> (forall v, u + m <= v < b -> ends v && Nat.eqb (dm_cur (dma v)) d = false) -> sl_loaded (slot_of b d) = true).
  { intros b UB. induction UB as [|b UB IHb]; intros HV; [apply M1; lia|]. rewrite sv_keep; [apply IHb; intros; apply HV; lia|exact DN|apply IHb; intros; apply HV; lia|apply HV; lia]. }
  destruct (first_in (fun v => ends v && Nat.eqb (dm_cur (dma v)) d) (u + m) (S t - (u + m))) as [G | (w & W1 & W2 & W3)].
  - right. exists (S t - u). split.
    + intros v V. destruct (Nat.le_gt_cases v (u + m)); [apply M1; lia|]. apply KP; [lia|]. intros q Q. apply G. lia.
    + replace (S t - u) with (m + (t - (u + m)) + 1) by lia. rewrite !occ_app. cbn [occurrences]. replace (u + (m + (t - (u + m))) + 0) with t by lia. rewrite ET. lia.
  - left. exists (S w). split; [lia|]. split.
    + intros v V. destruct (Nat.le_gt_cases v (u + m)); [apply M1; lia|]. apply KP; [lia|]. intros q Q. apply W3. lia.
    + apply sv_filled; [exact DN| |exact W2]. apply KP; [lia|exact W3].
Qed.
End Served.

(** C154.  Frames keep arriving, the memory keeps up and software leaves loaded slots alone, as for C98.  Slot [d] is loaded at [u], and from then on software loads
    slots with lower numbers at most [M] times.  Then slot [d] stays loaded until it is filled, and it is filled.  For slot 0 the condition always holds. *)
Theorem C154_loaded_slot_filled : forall n F lw aw dw align mem ra ns i X K E B b m words T0,
  streaming n F lw aw dw align mem ra ns i X K E B b m words T0 ->
  forall u d M, d < ns -> Z.odd (slot_status n F lw aw dw align mem ra ns i u d) = true ->
  (forall k, occurrences (fun t => cap_sys (i t) && PermitProps.loads d (cap_sw (i t))) u k <= M) ->
  exists z, u < z /\ (forall t, u <= t < z -> Z.odd (slot_status n F lw aw dw align mem ra ns i t d) = true) /\
  slot_status n F lw aw dw align mem ra ns i z d = 2%Z.
Proof.
  intros n F lw aw dw align mem ra ns i X K E B b m words T0 [N HM Haw NS HX H1 H2 H3 HD Hsys Hpix M1 HB HT SZ POL] u d M DN LU HL.
  assert (LO : forall s, Z.odd (sl_status s) = sl_loaded s) by (intros s; unfold sl_loaded; symmetry; apply Z.bit0_odd).
  assert (P2 : forall t j, c_sys i t = true -> sl_loaded (nth j (dm_slots (cap_dma (cap_run n F lw aw dw align mem ra (dma_init ns) i t))) slot0) = true -> CaptureLiveProofs.untouched (cap_sw (i t)) j).
  { intros t j Q1 L. apply (POL t j Q1). unfold slot_status. rewrite LO. exact L. }
  pose proof (lv_mem i K H1) as HM1. pose proof (lv_drain n F lw aw dw align mem ra (dma_init ns) i E H2) as HD1.
  pose proof (lv_sof n F lw aw dw align mem ra (dma_init ns) i N HM K E B X HX H1 H2 H3 HD b m words M1 HB T0 HT Hpix) as SOF.
  set (h := held (firstn d (dm_slots (cap_dma (cap_run n F lw aw dw align mem ra (dma_init ns) i u))))).
  unfold slot_status in LU. rewrite LO in LU.
  destruct (sv_either n F lw aw dw align mem ra ns i N HM Haw NS K E HM1 HD1 Hsys SOF P2 u d DN LU (h + M + 2)) as [(z & Z1 & Z2 & Z3)|(q & Q1 & Q2)].
  - exists z. split; [exact Z1|]. split; [|exact Z3]. intros t T. unfold slot_status. rewrite LO. apply Z2. exact T.
  - exfalso. pose proof (sv_count n F lw aw dw align mem ra ns i N Haw NS P2 u d DN q Q1) as C. specialize (HL q).
    change (occurrences (fun t => cap_sys (i t) && PermitProps.loads d (cap_sw (i t))) u q) with (occurrences (fun t => c_sys i t && PermitProps.loads d (cap_sw (i t))) u q) in HL.
    fold h in C. destruct (dm_cur (cap_dma (cap_run n F lw aw dw align mem ra (dma_init ns) i (u + q))) <=? d); lia.
Qed.
Print Assumptions C154_loaded_slot_filled.

(** The run of C99 in which slot 2 starves, but software stops loading slots 0 and 1 at instant 1000: slot 2, loaded at 200, is filled. *)
Definition ex_tired_in (t : nat) : cap_in :=
  let x := ex_starve_in t in
  {| cap_pix := cap_pix x; cap_sys := cap_sys x; cap_pk := cap_pk x; cap_mready := cap_mready x; cap_wbusy := cap_wbusy x; cap_size := cap_size x;
     cap_sw := if t <? 1000 then cap_sw x else SwNone; cap_mp := cap_mp x; cap_mc := cap_mc x |}.
Lemma ex_tired_same : forall t, t <= 1000 -> cap_run 4 2 32 8 64 3 (repeat fe_word0 16) 0 (dma_init 3) ex_tired_in t = ex_starve_run 3 t.
Proof.
  induction t as [|t IH]; intros T; [reflexivity|]. unfold ex_starve_run, cap_run in *. cbn [at_]. rewrite IH by lia. f_equal.
  unfold ex_tired_in. rewrite (proj2 (Nat.ltb_lt t 1000)) by lia. destruct (ex_starve_in t); reflexivity.
Qed.
Example ex_tired_streaming : streaming 4 2 32 8 64 3 (repeat fe_word0 16) 0 3 ex_tired_in ex_cap_pk 1 0 6 ex_b 2 ex_words 41.
Proof.
  constructor; try exact ex_live_clock; try exact ex_live_slow; try exact (proj1 ex_live_running); try exact (proj2 ex_live_running); try exact ex_cap_windows; try lia.
  - reflexivity.
  - exact ex_live_mem.
  - intros u t UT H. change (fun t => cap_sys (ex_tired_in t)) with (fun t => cap_sys (ex_live_in t)). rewrite ex_live_sys.
    destruct (Nat.le_gt_cases (t - u) 0) as [L|L]; [exact L|]. exfalso. specialize (H u ltac:(lia) eq_refl). discriminate.
  - apply Nat.ltb_lt. vm_compute. reflexivity.
  - vm_compute. reflexivity.
  - intros t _. vm_compute. reflexivity.
  - intros t j _ L. cbn [cap_sw ex_tired_in]. destruct (Nat.ltb_spec t 1000) as [T|T]; [|exact I].
    unfold slot_status in L. rewrite ex_tired_same in L by lia. exact (sm_polite _ _ _ _ _ _ _ _ _ _ _ _ _ _ _ _ _ _ ex_starve_streaming t j eq_refl L).
Qed.
Example ex_tired_filled : exists z, 201 < z /\ slot_status 4 2 32 8 64 3 (repeat fe_word0 16) 0 3 ex_tired_in z 2 = 2%Z.
Proof.
  destruct (C154_loaded_slot_filled _ _ _ _ _ _ _ _ _ _ _ _ _ _ _ _ _ _ ex_tired_streaming 201 2 1000 ltac:(lia)) as (z & Z1 & _ & Z2).
  - vm_compute. reflexivity.
  - intros k. assert (Q : occurrences (fun t => cap_sys (ex_tired_in t) && PermitProps.loads 2 (cap_sw (ex_tired_in t))) 201 k <= Nat.min k (1000 - 201)); [|lia].
    induction k as [|k IH]; [reflexivity|]. replace (S k) with (k + 1) by lia. rewrite occ_app. cbn [occurrences]. rewrite Nat.add_0_r.
    set (p := cap_sys (ex_tired_in (201 + k)) && PermitProps.loads 2 (cap_sw (ex_tired_in (201 + k)))).
    assert (P : 1000 <= 201 + k -> p = false). { intros G. unfold p. cbn [cap_sw ex_tired_in]. rewrite (proj2 (Nat.ltb_ge (201 + k) 1000)) by exact G. apply andb_false_r. }
    destruct (Nat.le_gt_cases 1000 (201 + k)) as [G|G]; [rewrite (P G); lia|]. destruct p; lia.
  - exists z. split; assumption.
Qed.
