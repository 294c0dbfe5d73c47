(** Lemmas for C95: a loaded slot gets its frame. *)
From Coq Require Import ZArith List Bool Lia Arith.
From Verif Require Import Hdl Trace CdcProofs AnalysisModel FrameProofs FrameProps InDmaModel InDmaProofs InDmaProps FifoModel FifoProofs FifoProps CaptureModel CaptureProofs
  CaptureRateProofs.
Import ListNotations.
Open Scope nat_scope.

(** First instant with a property. *)
Lemma first_in : forall (p : nat -> bool) a len, (forall t, a <= t < a + len -> p t = false) \/
  exists t, a <= t < a + len /\ p t = true /\ forall v, a <= v < t -> p v = false.
Proof.
  intros p a len. induction len as [|len IH]; [left; lia|]. destruct IH as [IH | (t & A & B & C)].
  - destruct (p (a + len)) eqn:P.
    + right. exists (a + len). split; [lia|]. split; [exact P|]. intros v V. apply IH. lia.
    + left. intros t T. destruct (Nat.eq_dec t (a + len)) as [->|]; [exact P|apply IH; lia].
  - right. exists t. split; [lia|]. split; [exact B|exact C].
Qed.

(** Slots. *)
Lemma slots_idle : forall aw align l k cur r, slots_step aw align k l cur false r SwNone = l.
Proof. intros aw align. induction l as [|s l IH]; intros k cur r; [reflexivity|]. cbn [slots_step]. rewrite IH. reflexivity. Qed.
Lemma slots_nth : forall aw align l k cur dn r w j d, j < length l ->
  nth j (slots_step aw align k l cur dn r w) d = slot_step aw align (k + j) (nth j l d) (dn && Nat.eqb cur (k + j)) r w.
Proof.
  intros aw align. induction l as [|s l IH]; intros k cur dn r w j d J; cbn [length] in J; [lia|]. cbn [slots_step]. destruct j as [|j].
  - rewrite Nat.add_0_r. reflexivity.
  - cbn [nth]. rewrite IH by lia. replace (S k + j) with (k + S j) by lia. reflexivity.
Qed.
Lemma slots_length : forall aw align l k cur dn r w, length (slots_step aw align k l cur dn r w) = length l.
Proof. intros aw align. induction l as [|s l IH]; intros; [reflexivity|]. cbn [slots_step length]. rewrite IH. reflexivity. Qed.
Lemma lowest_none : forall l k cur, (forall j, j < length l -> sl_loaded (nth j l slot0) = false) -> lowest l k cur = cur.
Proof.
  induction l as [|s l IH]; intros k cur H; [reflexivity|]. cbn [lowest]. rewrite (H 0 ltac:(cbn; lia) : sl_loaded s = false).
  apply IH. intros j J. apply (H (S j)). cbn [length]. lia.
Qed.
Lemma lowest_only : forall l k cur c, c < length l -> (forall j, j < length l -> sl_loaded (nth j l slot0) = Nat.eqb j c) -> lowest l k cur = k + c.
Proof.
  induction l as [|s l IH]; intros k cur c C H; cbn [length] in C; [lia|]. cbn [lowest].
  pose proof (H 0 ltac:(cbn; lia)) as H0. cbn [nth] in H0. destruct c as [|c]; rewrite H0; cbn [Nat.eqb]; [lia|].
  rewrite (IH (S k) cur c) by (try lia; intros j J; apply (H (S j)); cbn [length]; lia). lia.
Qed.

(** A software access that does not concern slot [c]. *)
Definition untouched (w : sw) (c : nat) : Prop :=
  match w with SwNone => True | SwStatus j _ => j <> c | SwAddr j _ => j <> c end.
Lemma slot_untouched : forall aw align c s dn r w, untouched w c -> slot_step aw align c s dn r w = slot_step aw align c s dn r SwNone.
Proof.
  intros aw align c s dn r [|j v|j v] H; [reflexivity| |]; cbn [untouched] in H; unfold slot_step; destruct (Nat.eqb_spec j c); try contradiction; reflexivity.
Qed.

Section Live.
Variables (n : Z) (F : nat) (lw aw dw align : Z) (mem : list (bool * list Z)) (ra : Z) (d0 : dma_st) (i : nat -> cap_in).
Hypothesis N : (1 <= n)%Z.
Hypothesis HM : Z.of_nat (length mem) = (2 ^ n)%Z.
Let st (t : nat) : cap_st := cap_run n F lw aw dw align mem ra d0 i t.
Let kp := c_kept n F lw aw dw align mem ra d0 i.
Let tk := c_taken n F lw aw dw align mem ra d0 i.
Let din := c_din n F lw aw dw align mem ra d0 i.
Let sys := c_sys i.
Let nk t := length (collect kp 0 t).
Let nt t := length (collect tk 0 t).
Variables (K E : nat).
Hypothesis Hmem : forall u t, u <= t -> (forall v, u <= v < t -> sys v = true -> cap_mready (i v) = false) ->
  occurrences sys u (t - u) <= K.
Hypothesis Hdrain : forall u t, u <= t -> (forall v, u <= v < t -> sys v = true -> dm_fsm (cap_dma (st v)) = EOF /\ cap_wbusy (i v) = true) ->
  occurrences sys u (t - u) <= E.
Hypothesis Hsys : forall u k, exists t, u <= t /\ k <= occurrences sys u (t - u).

Lemma nt_S : forall t, nt (S t) = nt t + match tk t with Some _ => 1 | None => 0 end.
Proof. intros t. unfold nt. cbn [collect Nat.add]. rewrite app_length. destruct (tk t); reflexivity. Qed.
Lemma nt_mono : forall u v, u <= v -> nt u <= nt v.
Proof. intros u v H. induction H as [|v H IH]; [lia|]. rewrite nt_S. lia. Qed.
Lemma nk_mono : forall u v, u <= v -> nk u <= nk v.
Proof. intros u v H. unfold nk. replace v with (u + (v - u)) by lia. rewrite collect_app, app_length. lia. Qed.

Lemma eventually_taken : forall u R, R < nk u -> exists t, u <= t /\ R < nt t.
Proof.
  intros u R HR. destruct (Hsys u 2) as (a & UA & S2).
  destruct (Hsys a (cost K E kp 0 u + E + K + 3)) as (t & AT & SB). exists t. split; [lia|].
  destruct (Nat.lt_ge_cases R (nt t)) as [L|L]; [exact L|]. exfalso.
  assert (RD : forall v, a <= v < t -> readable n F lw aw dw align mem ra d0 i v = true).
  { intros v V. unfold readable. rewrite c_fe_run.
    pose proof (C77_prompt n F mem ra (c_fin n F lw aw dw align mem ra d0 i) N HM u v ltac:(lia)) as P.
    assert (SV : 2 <= occurrences sys u (v - u)) by (rewrite (occ_split sys u a v) by lia; lia).
    specialize (P SV). cbv zeta in P. rewrite P; [reflexivity|].
    change (nt v < nk u). pose proof (nt_mono v t ltac:(lia)). lia. }
  pose proof (service n F lw aw dw align mem ra d0 i N HM K E Hmem Hdrain a t AT RD) as SV. fold tk sys in SV.
  assert (CT : cost K E tk 0 t <= cost K E kp 0 u).
  { destruct (tk_prefix n F lw aw dw align mem ra d0 i N HM t) as [A _]. fold tk kp in A. unfold cost. rewrite A.
    assert (Q : firstn (length (collect tk 0 t)) (collect kp 0 t) = firstn (length (collect tk 0 t)) (collect kp 0 u)).
    { replace t with (u + (t - u)) at 2 by lia. rewrite collect_app, firstn_app.
      replace (length (collect tk 0 t) - length (collect kp 0 u)) with 0 by (unfold nt, nk in *; lia). cbn [firstn]. apply app_nil_r. }
    rewrite Q. rewrite <- firstn_map. rewrite <- (firstn_all (map (word_cost K E) (collect kp 0 u))) at 2.
    apply sum_firstn. rewrite map_length. unfold nt, nk in *. lia. }
  pose proof (cost_split K E tk 0 a t ltac:(lia)) as CS. rewrite !Nat.sub_0_r in CS. lia.
Qed.

Lemma occ_reach : forall e u k t, u <= t -> k <= occurrences e u (t - u) -> exists a, u <= a <= t /\ occurrences e u (a - u) = k.
Proof.
  intros e u k t UT. replace t with (u + (t - u)) by lia. induction (t - u) as [|d IH]; intros H.
  - rewrite Nat.add_0_r, Nat.sub_diag in H. cbn in H. exists u. rewrite Nat.sub_diag. cbn. split; lia.
  - replace (u + S d - u) with (S d) in H by lia. destruct (Nat.eq_dec (occurrences e u (S d)) k) as [Q|NQ].
    + exists (u + S d). split; [lia|]. replace (u + S d - u) with (S d) by lia. exact Q.
    + destruct IH as (a & A & O); [|exists a; split; [lia|exact O]]. replace (u + d - u) with d by lia.
      cbn [occurrences] in H, NQ. destruct (e (u + d)); lia.
Qed.

(** The words stored before [u] have been taken once enough sys clocks have passed. *)
Lemma taken_by : forall D u t, u <= t -> cost K E kp 0 u <= cost K E tk 0 u + D -> D + E + K + 5 <= occurrences sys u (t - u) -> nk u <= nt t.
Proof.
  intros D u t UT HD HS. destruct (occ_reach sys u 2 t UT ltac:(lia)) as (a & UA & S2).
  destruct (Nat.le_gt_cases (nk u) (nt t)) as [L|L]; [exact L|]. exfalso.
  assert (RD : forall v, a <= v < t -> readable n F lw aw dw align mem ra d0 i v = true).
  { intros v V. unfold readable. rewrite c_fe_run.
    pose proof (C77_prompt n F mem ra (c_fin n F lw aw dw align mem ra d0 i) N HM u v ltac:(lia)) as P.
    assert (SV : 2 <= occurrences sys u (v - u)) by (rewrite (occ_split sys u a v) by lia; lia).
    specialize (P SV). cbv zeta in P. rewrite P; [reflexivity|].
    change (nt v < nk u). pose proof (nt_mono v t ltac:(lia)). lia. }
  pose proof (service n F lw aw dw align mem ra d0 i N HM K E Hmem Hdrain a t ltac:(lia) RD) as SV. fold tk sys in SV.
  assert (CT : cost K E tk 0 t <= cost K E kp 0 u).
  { destruct (tk_prefix n F lw aw dw align mem ra d0 i N HM t) as [A _]. fold tk kp in A. unfold cost. rewrite A.
    assert (Q : firstn (length (collect tk 0 t)) (collect kp 0 t) = firstn (length (collect tk 0 t)) (collect kp 0 u)).
    { replace t with (u + (t - u)) at 2 by lia. rewrite collect_app, firstn_app.
      replace (length (collect tk 0 t) - length (collect kp 0 u)) with 0 by (unfold nt, nk in *; lia). cbn [firstn]. apply app_nil_r. }
    rewrite Q. rewrite <- firstn_map. rewrite <- (firstn_all (map (word_cost K E) (collect kp 0 u))) at 2.
    apply sum_firstn. rewrite map_length. unfold nt, nk in *. lia. }
  pose proof (cost_split K E tk 0 a t ltac:(lia)) as CS. pose proof (cost_split K E tk 0 u a ltac:(lia)) as CU. rewrite !Nat.sub_0_r in CS, CU.
  pose proof (occ_split sys u a t ltac:(lia)). lia.
Qed.

(** The instant at which word [R] is taken. *)
Lemma taken_at : forall R u v, nt u <= R -> R < nk v -> exists t, u <= t /\ nt t = R /\ tk t <> None.
Proof.
  intros R u v LU LV. destruct (eventually_taken v R LV) as (t & VT & LT).
  assert (UT : u < t). { destruct (Nat.lt_ge_cases u t) as [L|L]; [exact L|]. pose proof (nt_mono t u L). lia. }
  destruct (first_in (fun t => R <? nt t) u (t - u + 1)) as [H | (x & X & PX & NX)].
  - specialize (H t ltac:(lia)). cbn in H. apply Nat.ltb_ge in H. lia.
  - apply Nat.ltb_lt in PX. assert (XU : u < x). { destruct (Nat.eq_dec x u) as [->|]; lia. }
    exists (x - 1). split; [lia|]. pose proof (NX (x - 1) ltac:(lia)) as L. cbn in L. apply Nat.ltb_ge in L.
    pose proof (nt_S (x - 1)) as Q. replace (S (x - 1)) with x in Q by lia. destruct (tk (x - 1)); [split; [lia|discriminate]|lia].
Qed.

Lemma fsm_S : forall t, cap_dma (st (S t)) = if sys t then dma_step aw dw align (cap_dma (st t)) (din t) else cap_dma (st t).
Proof. intros t. apply c_dma_step. Qed.
Lemma tk_eq : forall t, tk t = if sys t && dm_ready (cap_dma (st t)) (din t) then fe_frame (cap_fe (st t)) else None.
Proof. intros t. apply (tk_def n F lw aw dw align mem ra d0 i t). Qed.

(** First words of frames keep coming. *)
Hypothesis Hsof : forall R, exists v R', R <= R' < nk v /\ fst (nth R' (collect kp 0 v) fe_word0) = true.

Variables (x0 c : nat).
Hypothesis SW : forall t, x0 <= t -> sys t = true -> sl_loaded (nth c (dm_slots (cap_dma (st t))) slot0) = true -> untouched (cap_sw (i t)) c.
Hypothesis Haw : (0 < aw)%Z.
Hypothesis F0 : dm_fsm (cap_dma (st x0)) = WAIT_SOF.
Hypothesis C0 : dm_cur (cap_dma (st x0)) = c.
Hypothesis CL : c < length (dm_slots (cap_dma (st x0))).
Hypothesis SL : sl_loaded (nth c (dm_slots (cap_dma (st x0))) slot0) = true.

Lemma len_const : forall t, length (dm_slots (cap_dma (st t))) = length (dm_slots (cap_dma (st x0))).
Proof.
  assert (H : forall t, length (dm_slots (cap_dma (st t))) = length (dm_slots (cap_dma (st 0)))); [|intros t; rewrite (H t), (H x0); reflexivity].
  induction t as [|t IH]; [reflexivity|]. rewrite fsm_S. destruct (sys t); [|exact IH]. unfold dma_step; cbn [dm_slots]. rewrite slots_length. exact IH.
Qed.

Definition same_slots (t : nat) : Prop :=
  dm_cur (cap_dma (cap_run n F lw aw dw align mem ra d0 i t)) = c /\
  nth c (dm_slots (cap_dma (cap_run n F lw aw dw align mem ra d0 i t))) slot0 = nth c (dm_slots (cap_dma (cap_run n F lw aw dw align mem ra d0 i x0))) slot0.

Lemma same_slot : forall t, same_slots t -> dm_slot (cap_dma (st t)) = nth c (dm_slots (cap_dma (st x0))) slot0.
Proof.
  intros t [A B]. unfold dm_slot. fold (st t) in A, B. rewrite A. rewrite len_const. fold (st x0) in B.
  replace (Nat.min c (length (dm_slots (cap_dma (st x0))) - 1)) with c by lia. exact B.
Qed.
Lemma same_av : forall t, same_slots t -> dm_av (cap_dma (st t)) = true.
Proof. intros t H. unfold dm_av. rewrite same_slot by exact H. exact SL. Qed.
Lemma same_S : forall t, x0 <= t -> same_slots t -> dm_done (cap_dma (st t)) (din t) = false \/ sys t = false -> same_slots (S t).
Proof.
  intros t X H D. pose proof (same_av t H) as AV. destruct H as [A B]. unfold same_slots. fold (st (S t)). fold (st t) in A, B. rewrite fsm_S.
  destruct (sys t) eqn:Q; [|split; assumption]. destruct D as [D | D]; [|discriminate].
  unfold dma_step. cbn [dm_cur dm_slots]. rewrite D, AV. cbn [negb orb]. split; [exact A|].
  rewrite slots_nth by (rewrite len_const; exact CL). rewrite Nat.add_0_l. change (dmi_sw (din t)) with (cap_sw (i t)).
  rewrite slot_untouched; [exact B|]. apply SW; [exact X|exact Q|]. rewrite B. exact SL.
Qed.

(** Until the start. *)
Lemma before_start : forall t, x0 <= t -> (forall v, x0 <= v < t -> c_starts n F lw aw dw align mem ra d0 i v = false) ->
  dm_fsm (cap_dma (st t)) = WAIT_SOF /\ same_slots t.
Proof.
  intros t X. induction X as [|t X IH]; intros H; [split; [exact F0|split; [exact C0|reflexivity]]|].
  destruct IH as [IF IS]; [intros; apply H; lia|]. split.
  - rewrite fsm_S. destruct (sys t) eqn:Q; [|exact IF]. unfold dma_step; cbn [dm_fsm]. rewrite IF.
    specialize (H t ltac:(lia)). unfold c_starts in H. fold (sys t) in H. change (c_sys i t) with (sys t) in H. rewrite Q in H. cbn [andb] in H. fold (st t) in H.
    fold din in H. rewrite H. reflexivity.
  - apply same_S; [exact X|exact IS|]. left. unfold dm_done. rewrite IF. reflexivity.
Qed.

Lemma start_exists : exists x, x0 <= x /\ c_starts n F lw aw dw align mem ra d0 i x = true /\
  forall v, x0 <= v < x -> c_starts n F lw aw dw align mem ra d0 i v = false.
Proof.
  destruct (Hsof (nt x0)) as (v & R & (R1 & R2) & TAG). destruct (taken_at R x0 v R1 R2) as (t & XT & NT & TK).
  destruct (first_in (c_starts n F lw aw dw align mem ra d0 i) x0 (S t - x0)) as [H | (x & X & SX & NX)].
  - exfalso. destruct (before_start t XT) as [FW SS]; [intros; apply H; lia|].
    rewrite tk_eq in TK. destruct (sys t) eqn:Q; [|exact (TK eq_refl)]. cbn [andb] in TK.
    destruct (fe_frame (cap_fe (st t))) as [w|] eqn:W; [|destruct (dm_ready _ _); exact (TK eq_refl)].
    destruct (c_head n F lw aw dw align mem ra d0 i N HM t w W) as [HL HW]. fold tk kp in HL, HW. fold (nt t) (nk t) in HL. fold (nt t) in HW.
    rewrite NT in HL, HW.
    assert (TG : fst w = true).
    { rewrite <- TAG, HW. f_equal. destruct (Nat.le_ge_cases t v) as [L|L].
      - apply (nth_prefix _ kp fe_word0 0 t v R L HL).
      - symmetry. apply (nth_prefix _ kp fe_word0 0 v t R L R2). }
    specialize (H t ltac:(lia)). unfold c_starts in H. change (c_sys i t) with (sys t) in H. rewrite Q in H. cbn [andb] in H. fold (st t) in H. fold din in H.
    unfold dm_ready in TK. unfold dm_start in H. rewrite FW in H, TK. rewrite (same_av t SS) in H, TK. cbn [negb orb andb] in H, TK.
    pose proof (din_some n F lw aw dw align mem ra d0 i t w W) as D. cbv zeta in D. fold din in D. destruct D as (DV & DS & _).
    rewrite DV, DS, TG in H. discriminate.
  - exists x. split; [lia|]. split; [exact SX|exact NX].
Qed.

(** From the start to the last word. *)
Variable m : nat.
Hypothesis SZ : forall t, x0 <= t -> Z.of_nat m = size_words aw align (cap_size (i t)).
Hypothesis M1 : 1 <= m.
Section Transfer.
Variable x : nat.
Hypothesis X0 : x0 <= x.
Hypothesis ST : c_starts n F lw aw dw align mem ra d0 i x = true.
Hypothesis NST : forall v, x0 <= v < x -> c_starts n F lw aw dw align mem ra d0 i v = false.

Lemma x_facts : sys x = true /\ dm_fsm (cap_dma (st x)) = WAIT_SOF /\ same_slots x /\ dm_start (cap_dma (st x)) (din x) = true.
Proof.
  destruct (before_start x X0 NST) as [A B]. unfold c_starts in ST. apply andb_prop in ST as [S1 S2]. fold (st x) in S2. fold din in S2.
  split; [exact S1|]. split; [exact A|]. split; [exact B|exact S2].
Qed.
Lemma nt_x : nt (S x) = nt x.
Proof.
  destruct x_facts as (S1 & FW & SS & S2). rewrite nt_S, tk_eq, S1. unfold dm_ready. rewrite FW. unfold dm_start in S2. rewrite FW in S2.
  apply andb_prop in S2 as [S2 _]. rewrite <- negb_andb. rewrite S2. cbn. lia.
Qed.

Lemma in_transfer : forall t, x < t -> nt t < nt x + m -> same_slots t /\
  dm_fsm (cap_dma (st t)) = TRANSFER /\ dm_left (cap_dma (st t)) = (Z.of_nat m - Z.of_nat (nt t - nt x))%Z.
Proof.
  destruct x_facts as (S1 & FW & SS & S2).
  assert (MB : (Z.of_nat m < 2 ^ aw)%Z).
  { rewrite (SZ x X0). unfold size_words. apply Z.mod_pos_bound. apply Z.pow_pos_nonneg; lia. }
  intros t XT. induction XT as [|t XT IH]; intros LT.
  - split; [apply same_S; [exact X0|exact SS|left; unfold dm_done; rewrite FW; reflexivity]|].
    rewrite fsm_S, S1. unfold dma_step; cbn [dm_fsm dm_left]. rewrite FW, S2. split; [reflexivity|].
    rewrite nt_x, Nat.sub_diag. change (dmi_size (din x)) with (cap_size (i x)). change (slice align aw (cap_size (i x))) with (size_words aw align (cap_size (i x))).
    rewrite <- (SZ x X0). lia.
  - pose proof (nt_S t) as NS. pose proof (nt_mono x t ltac:(lia)) as NM. destruct IH as (IS & IF & IL); [lia|].
    split; [apply same_S; [lia|exact IS|left; unfold dm_done; rewrite IF; reflexivity]|].
    rewrite fsm_S. rewrite NS in LT |- *. rewrite tk_eq in LT |- *. destruct (sys t) eqn:Q; cbn [andb] in *.
    2:{ rewrite Nat.add_0_r. split; assumption. }
    unfold dm_ready in LT |- *. rewrite IF in LT |- *. unfold dma_step; cbn [dm_fsm dm_left]. rewrite IF. unfold dm_write. rewrite IF.
    destruct (fe_frame (cap_fe (st t))) as [w|] eqn:W.
    + pose proof (din_some n F lw aw dw align mem ra d0 i t w W) as D. cbv zeta in D. fold din in D. destruct D as (DV & _). rewrite DV. cbn [andb].
      destruct (dmi_ready (din t)); cbn [andb].
      * rewrite IL. split.
        -- replace (Z.of_nat m - Z.of_nat (nt t - nt x) =? 1)%Z with false by (symmetry; apply Z.eqb_neq; lia). reflexivity.
        -- unfold trunc. rewrite Z.mod_small by lia. lia.
      * rewrite Nat.add_0_r. split; [reflexivity|exact IL].
    + assert (DV : dmi_valid (din t) = false) by (unfold din, c_din, cap_dma_in; fold (st t); rewrite W; reflexivity).
      rewrite DV. cbn [andb]. destruct (dmi_ready (din t)); rewrite Nat.add_0_r; (split; [reflexivity|exact IL]).
Qed.

Lemma acc_tk : forall t, x < t -> nt t < nt x + m -> c_accepted n F lw aw dw align mem ra d0 i t = match tk t with Some _ => true | None => false end.
Proof.
  intros t XT LT. destruct (in_transfer t XT LT) as (_ & IF & _). rewrite tk_eq. unfold c_accepted. change (c_sys i t) with (sys t). fold din.
  unfold dm_ready. rewrite IF. destruct (sys t); [|reflexivity]. cbn [andb]. unfold din, c_din, cap_dma_in. fold (st t). cbn [dmi_valid dmi_ready].
  destruct (fe_frame (cap_fe (st t))), (cap_mready (i t)); reflexivity.
Qed.

Lemma last_exists : exists y, x < y /\ nt y = nt x + (m - 1) /\ tk y <> None /\
  occurrences (c_accepted n F lw aw dw align mem ra d0 i) (x + 1) (y - x - 1) = m - 1 /\ c_accepted n F lw aw dw align mem ra d0 i y = true.
Proof.
  destruct (Hsof (nt x + (m - 1))) as (v & R & (R1 & R2) & _).
  destruct (taken_at (nt x + (m - 1)) (S x) v) as (y & XY & NY & TY); [rewrite nt_x; lia|lia|].
  exists y. split; [lia|]. split; [exact NY|]. split; [exact TY|]. split.
  - rewrite (occurrences_ext _ (fun t => match tk t with Some _ => true | None => false end) (x + 1) (y - x - 1)).
    2:{ intros t T. apply acc_tk; [lia|]. pose proof (nt_mono t y ltac:(lia)). lia. }
    pose proof (collect_length _ tk (x + 1) (y - x - 1)) as CL'.
    assert (Q : nt y = nt (S x) + length (collect tk (x + 1) (y - x - 1))).
    { unfold nt. replace y with (S x + (y - x - 1)) at 1 by lia. rewrite collect_app, app_length. do 2 f_equal. f_equal. lia. }
    rewrite nt_x in Q. lia.
  - rewrite acc_tk by lia. destruct (tk y); [reflexivity|congruence].
Qed.

Section Finish.
Variable y : nat.
Hypothesis XY : x < y.
Hypothesis NY : nt y = nt x + (m - 1).
Hypothesis TY : tk y <> None.

Lemma y_state : sys y = true /\ same_slots (S y) /\ dm_fsm (cap_dma (st (S y))) = EOF.
Proof.
  destruct (in_transfer y XY ltac:(lia)) as (IS & IF & IL). rewrite tk_eq in TY.
  assert (Q : sys y = true) by (destruct (sys y); [reflexivity|exfalso; exact (TY eq_refl)]).
  split; [exact Q|]. split; [apply same_S; [lia|exact IS|left; unfold dm_done; rewrite IF; reflexivity]|].
  rewrite fsm_S, Q. rewrite Q in TY. cbn [andb] in TY. unfold dm_ready in TY. rewrite IF in TY. unfold dma_step; cbn [dm_fsm]. rewrite IF. unfold dm_write. rewrite IF.
  destruct (fe_frame (cap_fe (st y))) as [w|] eqn:W; [|destruct (dmi_ready (din y)); exfalso; exact (TY eq_refl)].
  pose proof (din_some n F lw aw dw align mem ra d0 i y w W) as D. cbv zeta in D. fold din in D. destruct D as (DV & _). rewrite DV. cbn [andb].
  destruct (dmi_ready (din y)); [|exfalso; exact (TY eq_refl)]. cbn [andb]. rewrite IL, NY.
  replace (nt x + (m - 1) - nt x) with (m - 1) by lia. replace (Z.of_nat m - Z.of_nat (m - 1) =? 1)%Z with true by (symmetry; apply Z.eqb_eq; lia). reflexivity.
Qed.

Definition drained (t : nat) : bool := c_sys i t && negb (cap_wbusy (i t)).
Lemma waiting_eof : forall t, S y <= t -> (forall v, S y <= v < t -> drained v = false) -> same_slots t /\ dm_fsm (cap_dma (st t)) = EOF.
Proof.
  destruct y_state as (_ & SS & FE). intros t T. induction T as [|t T IH]; intros H; [split; assumption|].
  destruct IH as [IS IF]; [intros; apply H; lia|]. specialize (H t ltac:(lia)). unfold drained in H. change (c_sys i t) with (sys t) in H.
  assert (D : sys t = true -> dm_done (cap_dma (st t)) (din t) = false).
  { intros Q. rewrite Q in H. cbn [andb] in H. unfold dm_done. rewrite IF. exact H. }
  split.
  - apply same_S; [lia|exact IS|]. destruct (sys t); [left; apply D; reflexivity|right; reflexivity].
  - rewrite fsm_S. destruct (sys t) eqn:Q; [|exact IF]. unfold dma_step; cbn [dm_fsm]. rewrite IF, (D eq_refl). reflexivity.
Qed.

Lemma done_exists : exists z, y < z /\ (forall v, y < v <= z -> same_slots v /\ dm_fsm (cap_dma (st v)) = EOF) /\
  nth c (dm_slots (cap_dma (st (S z)))) slot0 = {| sl_status := 2; sl_addr := dm_addr (cap_dma (st z)) * 2 ^ align |} /\
  dm_fsm (cap_dma (st (S z))) = WAIT_SOF.
Proof.
  destruct (Hsys (S y) (E + 1)) as (t & YT & SE).
  destruct (first_in drained (S y) (t - S y)) as [H | (z & Z1 & DZ & NZ)].
  - exfalso. assert (L : occurrences sys (S y) (t - S y) <= E); [|lia]. apply Hdrain; [exact YT|]. intros v V Q.
    destruct (waiting_eof v ltac:(lia)) as [_ FE]; [intros; apply H; lia|]. split; [exact FE|].
    specialize (H v ltac:(lia)). unfold drained in H. change (c_sys i v) with (sys v) in H. rewrite Q in H. destruct (cap_wbusy (i v)); [reflexivity|discriminate].
  - exists z. split; [lia|].
    assert (FE : forall v, y < v <= z -> same_slots v /\ dm_fsm (cap_dma (st v)) = EOF) by (intros v V; apply waiting_eof; [lia|intros; apply NZ; lia]).
    split; [exact FE|]. destruct (FE z ltac:(lia)) as [[SC SS] FZ]. fold (st z) (st x0) in SS. fold (st z) in SC.
    unfold drained in DZ. apply andb_prop in DZ as [Q WB]. change (c_sys i z) with (sys z) in Q.
    assert (D : dm_done (cap_dma (st z)) (din z) = true) by (unfold dm_done; rewrite FZ; exact WB).
    rewrite fsm_S, Q. unfold dma_step; cbn [dm_fsm dm_slots]. rewrite FZ, D. split; [|reflexivity].
    rewrite slots_nth by (rewrite len_const; exact CL). rewrite SC, Nat.add_0_l, Nat.eqb_refl. cbn [andb].
    change (dmi_sw (din z)) with (cap_sw (i z)). rewrite slot_untouched; [reflexivity|]. apply SW; [lia|exact Q|]. rewrite SS. exact SL.
Qed.
End Finish.
End Transfer.

(** Writes happen only between the start and the last word. *)
Lemma capture : exists x y z, x0 <= x < y /\ y < z /\ c_starts n F lw aw dw align mem ra d0 i x = true /\
  occurrences (c_accepted n F lw aw dw align mem ra d0 i) (x + 1) (y - x - 1) = m - 1 /\ c_accepted n F lw aw dw align mem ra d0 i y = true /\
  sl_addr (dm_slot (cap_dma (st x))) = sl_addr (nth c (dm_slots (cap_dma (st x0))) slot0) /\ sl_status (nth c (dm_slots (cap_dma (st (S z)))) slot0) = 2%Z /\
  collect (c_write n F lw aw dw align mem ra d0 i) x0 (S z - x0) = collect (c_write n F lw aw dw align mem ra d0 i) (x + 1) (y - x) /\
  forall t, x0 <= t <= z -> nth c (dm_slots (cap_dma (st t))) slot0 = nth c (dm_slots (cap_dma (st x0))) slot0.
Proof.
  destruct start_exists as (x & X & SX & NX). destruct (last_exists x X SX NX) as (y & XY & NY & TY & CNT & LAST).
  destruct (done_exists x X SX NX y XY NY TY) as (z & YZ & FE & SLZ & _).
  exists x, y, z. split; [lia|]. split; [exact YZ|]. split; [exact SX|]. split; [exact CNT|]. split; [exact LAST|].
  split; [rewrite (same_slot x (proj1 (proj2 (proj2 (x_facts x X SX NX))))); reflexivity|]. split; [rewrite SLZ; reflexivity|].
  set (wr := c_write n F lw aw dw align mem ra d0 i).
  assert (NONE : forall a len, (forall t, a <= t < a + len -> wr t = None) -> collect wr a len = []).
  { intros a len H. induction len as [|len IH]; [reflexivity|]. cbn [collect]. rewrite IH by (intros; apply H; lia). rewrite H by lia. reflexivity. }
  replace (S z - x0) with ((x + 1 - x0) + ((y - x) + (z - y))) by lia. rewrite !collect_app.
  rewrite (NONE x0 (x + 1 - x0)).
  2:{ intros t T. destruct (before_start t ltac:(lia)) as [FW _]; [intros; apply NX; lia|]. unfold wr, c_write. fold (st t). unfold dm_write. rewrite FW.
      destruct (c_sys i t); reflexivity. }
  rewrite (NONE (x0 + (x + 1 - x0) + (y - x)) (z - y)).
  2:{ intros t T. unfold wr, c_write. fold (st t). unfold dm_write. rewrite (proj2 (FE t ltac:(lia))). destruct (c_sys i t); reflexivity. }
  rewrite app_nil_r. cbn [app]. split; [f_equal; lia|]. intros t T.
  destruct (Nat.le_gt_cases t x) as [L|L]; [apply (before_start t ltac:(lia)); intros; apply NX; lia|].
  destruct (Nat.le_gt_cases t y) as [L2|L2]; [|apply (FE t); lia].
  apply (in_transfer x X SX NX t L). pose proof (nt_mono t y ltac:(lia)). lia.
Qed.
End Live.

(** * Loading a slot *)
Section Load.
Variables (n : Z) (F : nat) (lw aw dw align : Z) (mem : list (bool * list Z)) (ra : Z) (ns : nat) (i : nat -> cap_in).
Let d0 := dma_init ns.
Let st (t : nat) : cap_st := cap_run n F lw aw dw align mem ra d0 i t.
Let din := c_din n F lw aw dw align mem ra d0 i.
Let sys := c_sys i.

Lemma slots_count : forall t, length (dm_slots (cap_dma (st t))) = ns.
Proof.
  induction t as [|t IH]; [apply repeat_length|].
  change (st (S t)) with (cap_step n F lw aw dw align (st t) (i t)). unfold cap_step; cbn [cap_dma].
  destruct (cap_sys (i t)); [|exact IH]. unfold dma_step; cbn [dm_slots]. rewrite slots_length. exact IH.
Qed.
Lemma lowest_range : forall l k cur, (forall b, cur < b -> k + length l <= b -> lowest l k cur < b).
Proof.
  induction l as [|s l IH]; intros k cur b CB L; cbn [lowest length] in *; [exact CB|].
  destruct (sl_loaded s); [lia|]. apply IH; [exact CB|lia].
Qed.
Lemma cur_range : 1 <= ns -> forall t, dm_cur (cap_dma (st t)) < ns.
Proof.
  intros H. induction t as [|t IH]; [cbn; lia|].
  change (st (S t)) with (cap_step n F lw aw dw align (st t) (i t)). unfold cap_step; cbn [cap_dma].
  destruct (cap_sys (i t)); [|exact IH]. unfold dma_step; cbn [dm_cur]. destruct (_ || _); [|exact IH].
  apply lowest_range; [exact IH|]. rewrite slots_count. lia.
Qed.

Variables (w0 c : nat) (A0 : Z).
Hypothesis Hsys : forall u k, exists t, u <= t /\ k <= occurrences sys u (t - u).
Hypothesis WS : sys w0 = true.
Hypothesis WR : cap_sw (i w0) = SwStatus c 1.
Hypothesis SW : forall t, w0 < t -> cap_sw (i t) = SwNone.
Hypothesis F0 : dm_fsm (cap_dma (st w0)) = WAIT_SOF.
Hypothesis CL : c < ns.
Hypothesis NL : forall j, j < ns -> sl_loaded (nth j (dm_slots (cap_dma (st w0))) slot0) = false.
Hypothesis AD : sl_addr (nth c (dm_slots (cap_dma (st w0))) slot0) = A0.

Lemma load_step : forall t, cap_dma (st (S t)) = if sys t then dma_step aw dw align (cap_dma (st t)) (din t) else cap_dma (st t).
Proof. intros t. apply c_dma_step. Qed.
Lemma not_av : forall t, (forall j, j < ns -> sl_loaded (nth j (dm_slots (cap_dma (st t))) slot0) = false) -> dm_av (cap_dma (st t)) = false.
Proof. intros t H. unfold dm_av, dm_slot. apply H. rewrite slots_count. lia. Qed.

Lemma loaded : exists x0, w0 < x0 /\ dm_fsm (cap_dma (st x0)) = WAIT_SOF /\ dm_cur (cap_dma (st x0)) = c /\
  nth c (dm_slots (cap_dma (st x0))) slot0 = {| sl_status := 1; sl_addr := A0 |} /\
  forall t, w0 <= t < x0 -> dm_fsm (cap_dma (st t)) = WAIT_SOF.
Proof.
  pose proof (not_av w0 NL) as AV.
  assert (S1 : dm_fsm (cap_dma (st (S w0))) = WAIT_SOF /\ dm_cur (cap_dma (st (S w0))) = dm_cur (cap_dma (st w0)) /\
    (forall j, j < ns -> nth j (dm_slots (cap_dma (st (S w0)))) slot0 =
       if Nat.eqb c j then {| sl_status := 1; sl_addr := A0 |} else nth j (dm_slots (cap_dma (st w0))) slot0)).
  { rewrite load_step, WS. unfold dma_step; cbn [dm_fsm dm_cur dm_slots]. rewrite F0. unfold dm_start, dm_done. rewrite F0, AV. cbn [andb orb negb].
    split; [reflexivity|]. split; [apply lowest_none; rewrite slots_count; exact NL|]. intros j J.
    rewrite slots_nth by (rewrite slots_count; exact J). change (dmi_sw (din w0)) with (cap_sw (i w0)). rewrite WR. unfold slot_step. cbn [andb].
    rewrite Nat.add_0_l. destruct (Nat.eqb_spec c j) as [<-|]; [|reflexivity]. rewrite AD. reflexivity. }
  destruct S1 as (G1 & G2 & G3). destruct (Nat.eq_dec (dm_cur (cap_dma (st w0))) c) as [EC|NC].
  - exists (S w0). split; [lia|]. split; [exact G1|]. split; [congruence|]. split; [rewrite G3, Nat.eqb_refl by exact CL; reflexivity|].
    intros t T. replace t with w0 by lia. exact F0.
  - destruct (Hsys (S w0) 1) as (t1 & T1 & O1).
    destruct (first_in sys (S w0) (t1 - S w0)) as [H | (w1 & W1 & SW1 & NW)].
    { exfalso. rewrite occ_zero in O1; [lia|exact H]. }
    assert (HOLD : forall t, S w0 <= t <= w1 -> cap_dma (st t) = cap_dma (st (S w0))).
    { intros t [L U]. induction L as [|t L IH]; [reflexivity|]. rewrite load_step, NW by lia. apply IH. lia. }
    assert (CR : dm_cur (cap_dma (st w1)) < ns) by (apply cur_range; lia).
    assert (ONLY : forall j, j < ns -> sl_loaded (nth j (dm_slots (cap_dma (st w1))) slot0) = Nat.eqb j c).
    { intros j J. rewrite HOLD by lia. rewrite G3 by exact J. rewrite Nat.eqb_sym. destruct (Nat.eqb_spec c j) as [->|NE].
      - rewrite Nat.eqb_refl. reflexivity.
      - destruct (Nat.eqb_spec j c); [congruence|]. apply NL. exact J. }
    assert (AV1 : dm_av (cap_dma (st w1)) = false).
    { unfold dm_av, dm_slot. rewrite slots_count. replace (Nat.min (dm_cur (cap_dma (st w1))) (ns - 1)) with (dm_cur (cap_dma (st w1))) by lia.
      rewrite ONLY by exact CR. apply Nat.eqb_neq. rewrite HOLD, G2 by lia. exact NC. }
    exists (S w1). split; [lia|]. rewrite load_step, SW1. unfold dma_step; cbn [dm_fsm dm_cur dm_slots].
    assert (FW : dm_fsm (cap_dma (st w1)) = WAIT_SOF) by (rewrite HOLD by lia; exact G1).
    rewrite FW. unfold dm_start, dm_done. rewrite FW, AV1. cbn [andb orb negb].
    split; [reflexivity|]. split; [rewrite (lowest_only _ 0 _ c); [reflexivity|rewrite slots_count; exact CL|rewrite slots_count; exact ONLY]|].
    split.
    + rewrite slots_nth by (rewrite slots_count; exact CL). change (dmi_sw (din w1)) with (cap_sw (i w1)). rewrite SW by lia. cbn [andb slot_step].
      rewrite HOLD, G3, Nat.eqb_refl by lia. reflexivity.
    + intros t T. destruct (Nat.eq_dec t w0) as [->|]; [exact F0|]. rewrite HOLD by lia. exact G1.
Qed.
End Load.

(** * The packer gives at most one word per [F] clocks *)
Section PackRate.
Variables (k : nat) (X : nat -> pk_in).
Hypothesis K1 : 1 <= k.
Let F := 2 ^ k.

Lemma F_two : 2 <= F.
Proof. unfold F. destruct k; [lia|]. pose proof (Nat.pow_nonzero 2 n ltac:(lia)). cbn [Nat.pow]. lia. Qed.
Definition pk_load (t : nat) : nat := (if pk_valid (pk_run (2 ^ k) X t) then 2 ^ k else 0) + Z.to_nat (pk_cnt (pk_run (2 ^ k) X t)).
Lemma pack_inv : forall t, (0 <= pk_cnt (pk_run F X t) < Z.of_nat F)%Z /\ (pk_valid (pk_run F X t) = true -> pk_cnt (pk_run F X t) = 0%Z) /\
  pk_load (S t) <= Z.to_nat (pk_cnt (pk_run F X t)) + 1.
Proof.
  pose proof F_two as FT.
  assert (BITS : pk_bits F = Z.of_nat k).
  { apply pk_bits_pow2. exact K1. }
  assert (ST : forall s x, (0 <= pk_cnt s < Z.of_nat F)%Z -> let s' := pk_step F s x in
    (0 <= pk_cnt s' < Z.of_nat F)%Z /\ (pk_valid s' = true -> pk_cnt s' = 0%Z) /\ (if pk_valid s' then F else 0) + Z.to_nat (pk_cnt s') <= Z.to_nat (pk_cnt s) + 1).
  { intros s x R. cbv zeta. unfold pk_step; cbn [pk_cnt pk_valid]. rewrite BITS.
    assert (PF : (2 ^ Z.of_nat k = Z.of_nat F)%Z) by (unfold F; rewrite Nat2Z.inj_pow; reflexivity).
    destruct (pk_new_frame s x).
    - split; [lia|]. split; [reflexivity|]. destruct (Z.eqb_spec (pk_cnt s) (Z.of_nat F - 1)); lia.
    - destruct (pki_we x).
      + unfold trunc. rewrite PF. destruct (Z.eqb_spec (pk_cnt s) (Z.of_nat F - 1)) as [Q|Q].
        * rewrite Q. replace (Z.of_nat F - 1 + 1)%Z with (Z.of_nat F) by lia. rewrite Z.mod_same by lia. split; [lia|]. split; [reflexivity|]. lia.
        * rewrite Z.mod_small by lia. split; [lia|]. split; [discriminate|]. lia.
      + split; [exact R|]. split; [discriminate|]. lia. }
  assert (I : forall t, (0 <= pk_cnt (pk_run F X t) < Z.of_nat F)%Z /\ (pk_valid (pk_run F X t) = true -> pk_cnt (pk_run F X t) = 0%Z)).
  { induction t as [|t [A B]]; [cbn [pk_run at_ pk_init pk_cnt pk_valid]; split; [lia|discriminate]|].
    change (pk_run F X (S t)) with (pk_step F (pk_run F X t) (X t)). destruct (ST (pk_run F X t) (X t) A) as (C & D & _). split; assumption. }
  intros t. destruct (I t) as [A B]. split; [exact A|]. split; [exact B|]. unfold pk_load. fold F.
  change (pk_run F X (S t)) with (pk_step F (pk_run F X t) (X t)). apply (ST _ (X t) A).
Qed.

Lemma pack_rate : forall a L, F * length (collect (word_out F X) a L) <= L + F - 1.
Proof.
  pose proof F_two as FT. intros a L. destruct L as [|L]; [cbn; lia|].
  assert (W : forall t, length (match word_out F X t with Some w => [w] | None => [] end) = if pk_valid (pk_run F X t) then 1 else 0).
  { intros t. unfold word_out, pk_push. destruct (pk_valid _); reflexivity. }
  assert (H : F * length (collect (word_out F X) a (S L)) + Z.to_nat (pk_cnt (pk_run F X (a + L))) <= L + F).
  { induction L as [|L IH].
    - cbn [collect app]. rewrite W, Nat.add_0_r. destruct (pack_inv a) as (A & B & _).
      destruct (pk_valid (pk_run F X a)); [rewrite (B eq_refl)|]; lia.
    - replace (S (S L)) with (S L + 1) by lia. rewrite collect_app, app_length. cbn [collect app]. rewrite W, Nat.add_0_r.
      destruct (pack_inv (a + L)) as (A & B & C). unfold pk_load in C. fold F in C. replace (S (a + L)) with (a + S L) in C by lia.
      destruct (pk_valid (pk_run F X (a + S L))); change (collect (word_out F X) a L ++ _) with (collect (word_out F X) a (S L)); rewrite ?Nat.mul_add_distr_l, ?Nat.mul_1_r, ?Nat.mul_0_r; lia. }
  lia.
Qed.
End PackRate.
