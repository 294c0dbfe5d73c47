(** Auxiliary lemmas for RawTopProps: those of OutTopProofs.v for the core in raw mode. *)
From Coq Require Import ZArith List Bool Lia Arith.
From Verif Require Import Hdl Trace CdcProofs TimingModel TimingSpec TimingProofs VideoOutModel VideoOutProofs HdmiModel LinkModel
  FifoModel FifoProofs FifoProps OutTopModel OutTopProofs RawModel RawProps RawTopModel.
Import ListNotations.
Open Scope nat_scope.

Lemma rw_refilled : forall aw depth pr (ti : nat -> vt_in), (forall n, ti_push (ti n) = Some pr) ->
  forall n, vt_q (rw_run aw depth [pr] ti n) <> [].
Proof.
  intros aw depth pr ti H n. destruct n as [|n]; [discriminate|].
  change (rw_run aw depth [pr] ti (S n)) with (rw_step aw depth (rw_run aw depth [pr] ti n) (ti n)).
  unfold rw_step. cbv zeta. cbn [vt_q]. rewrite H. set (q := vt_q (rw_run aw depth [pr] ti n)).
  destruct (Nat.ltb_spec (length q) 4).
  - intros E. apply app_eq_nil in E as [_ E]. discriminate.
  - rewrite app_nil_r. destruct q as [|a [|b q]]; cbn in H0; try lia. destruct (_ && _); discriminate.
Qed.

Lemma rw_tg_at : forall aw depth pr (ti : nat -> vt_in), params_ok (vp_t pr) -> (forall n, ti_push (ti n) = Some pr) ->
  forall n, let st := rw_run aw depth [pr] ti in vt_tg (st n) = tg_at (vp_t pr) (Z.of_nat (occurrences (fun m => vt_xfer (st m) (ti m)) 0 n)).
Proof.
  intros aw depth pr ti ok H n st. induction n as [|n IH]; [symmetry; apply tg_at_0; exact ok|].
  change (st (S n)) with (rw_step aw depth (st n) (ti n)). unfold rw_step. cbv zeta. cbn [vt_tg]. unfold vo_step.
  destruct (rw_head_const aw depth pr ti (fun m q X => eq_sym (f_equal (fun o => match o with Some v => v | None => q end) (eq_trans (eq_sym (H m)) X))) (rw_refilled aw depth pr ti H) n) as [Hh Hv].
  fold st in Hh, Hv. cbn [occurrences plus].
  assert (ET : vo_tready (vt_tg (st n)) (vt_vi (st n) (ti n)) = vt_xfer (st n) (ti n)).
  { unfold vo_tready, vt_xfer, vo_transfer. cbn [vt_vi vi_valid]. rewrite Hv. reflexivity. }
  rewrite ET. cbn [vt_vi vi_valid vi_p]. rewrite Hh, Hv. rewrite IH.
  destruct (vt_xfer (st n) (ti n)); rewrite Nat2Z.inj_add.
  - change (Z.of_nat 1) with 1%Z. apply tg_at_succ; [exact ok|lia].
  - change (Z.of_nat 0) with 0%Z. rewrite Z.add_0_r. reflexivity.
Qed.

(** One clock depends on the queue only through its head. *)
Lemma rw_step_core : forall aw depth s1 s2 i1 i2, vt_tg s1 = vt_tg s2 -> vt_dr s1 = vt_dr s2 -> vt_reads s1 = vt_reads s2 ->
  vt_valid s1 = vt_valid s2 -> vt_head s1 i1 = vt_head s2 i2 -> ti_mem i1 = ti_mem i2 -> ti_ret i1 = ti_ret i2 ->
  ti_ready i1 = ti_ready i2 ->
  vt_vi s1 i1 = vt_vi s2 i2 /\
  vt_tg (rw_step aw depth s1 i1) = vt_tg (rw_step aw depth s2 i2) /\
  vt_dr (rw_step aw depth s1 i1) = vt_dr (rw_step aw depth s2 i2) /\
  vt_reads (rw_step aw depth s1 i1) = vt_reads (rw_step aw depth s2 i2).
Proof.
  intros aw depth s1 s2 i1 i2 H1 H2 H3 H4 H5 H6 H7 H8. unfold rw_step, vt_vi, vt_di. cbv zeta. cbn [vt_tg vt_dr vt_reads].
  rewrite H1, H2, H3, H4, H5, H6, H7, H8. auto.
Qed.

Section Top.
Variables (shift aw : Z) (depth : nat) (mem : list (list Z)) (ra : Z) (i : nat -> ot_in).
Hypothesis L : length mem = 4.
Let st := rt_run shift aw depth mem ra i.
Let ii (t : nat) : ini_in := ot_ini_in shift aw (st t) (i t).
Let cd t := ot_cd (i t).
Let c t := occurrences cd 0 t.

Lemma rt_ini_run : forall t, ot_ini (st t) = ini_run mem ra ii t.
Proof.
  induction t as [|t IH]; [reflexivity|]. unfold ini_run. cbn [at_]. fold (ini_run mem ra ii t).
  change (st (S t)) with (rt_step shift aw depth (st t) (i t)). unfold rt_step. cbv zeta. cbn [ot_ini]. rewrite IH. reflexivity.
Qed.

(** Before the first set is on offer nothing moves. *)
Lemma rt_idle : forall t, (forall x, x < t -> ini_out (ot_ini (st x)) = None) ->
  ot_tg (st t) = tg_init /\ ot_dr (st t) = dr_init /\ ot_reads (st t) = [].
Proof.
  induction t as [|t IH]; intros H; [auto|].
  destruct IH as (A & B & C); [intros x X; apply H; lia|].
  change (st (S t)) with (rt_step shift aw depth (st t) (i t)). unfold rt_step. cbv zeta. cbn [ot_tg ot_dr ot_reads].
  destruct (ot_cd (i t)); [|auto].
  unfold rw_step, vt_vi, vt_di, ot_vt, vt_valid. cbv zeta. cbn [vt_tg vt_dr vt_reads vt_q]. rewrite (H t) by lia. rewrite A, B, C.
  cbn. rewrite andb_false_r. auto.
Qed.

(** First start: offers come from the registers after [u]. *)
Lemma rt_offer_R : forall u R, (forall x, ini_en (ot_ini (st x)) = (u <=? x)) -> (forall x, u <= x -> ini_regs (ot_ini (st x)) = R) ->
  forall t v, ini_out (ot_ini (st t)) = Some v -> v = R /\ u < t.
Proof.
  intros u R Hen Hregs t v E. rewrite rt_ini_run in E. destruct (ini_offer mem ra ii L t v E) as (A & B & _ & ->).
  set (tau := instant _ _ _) in *. unfold f_wr in B. cbn [ini_fi ai_w ai_we] in B.
  apply andb_prop in B as [_ B]. apply andb_prop in B as [_ B]. unfold enabled_at in B. rewrite <- rt_ini_run, Hen in B.
  apply Nat.leb_le in B. split; [|lia]. unfold regs_at. rewrite <- rt_ini_run. apply Hregs. exact B.
Qed.

(** From here on: the output is in its reset state at [t0], a set is on offer then, it is
    enabled from then on, and only [R] is ever on offer. *)
Variables (R : list Z) (t0 : nat).
Hypothesis Hen : forall x, t0 <= x -> ini_en (ot_ini (st x)) = true.
Hypothesis Hval : forall t v, t0 <= t -> ini_out (ot_ini (st t)) = Some v -> v = R.
Hypothesis Hbase : ot_tg (st t0) = tg_init /\ ot_dr (st t0) = dr_init /\ ot_reads (st t0) = [].
Hypothesis Hoffer : ini_out (ot_ini (st t0)) <> None.

Let pr := regs_param shift aw R.
Let p := vp_t pr.
Hypothesis ok : params_ok p.
Variable E : nat -> nat.
Hypothesis HE : forall n, cd (E n) = true /\ c (E n) = n.
Let HV := Z.to_nat ((p_hscan p + 1) * (p_vscan p + 1)).
Hypothesis Hsys : forall a b, a <= b -> HV <= occurrences cd a (b - a) + 2 -> 4 <= occurrences (fun x => ot_sys (i x)) a (b - a).

Let n0 := c t0.
(** The inputs of the core of VideoOutModel. *)
Definition rt_core_in (k : nat) : vt_in :=
  let t := E (n0 + k) in
  {| ti_push := Some pr; ti_mem := ot_mem (i t); ti_ret := ot_ret (i t); ti_ready := ot_ready (i t); ti_junk := pr |}.
Let vt := rw_run aw depth [pr] rt_core_in.
Let cnt k := occurrences (fun m => vt_xfer (vt m) (rt_core_in m)) 0 k.
Let Hpush : forall n q, ti_push (rt_core_in n) = Some q -> q = pr.
Proof. intros n q H. injection H. auto. Qed.
Let Hq : forall n, vt_q (vt n) <> [] := rw_refilled aw depth pr rt_core_in (fun _ => eq_refl).

Lemma rt_occ_upper : forall (f : nat -> bool) x m, occurrences f x m <= m.
Proof. clear. intros f x. induction m as [|m IH]; [cbn; lia|]. cbn [occurrences]. destruct (f (x + m)); lia. Qed.
Lemma rt_cnt_le : forall a b, a <= b -> cnt a <= cnt b <= cnt a + (b - a).
Proof.
  intros a b H. unfold cnt. set (f := fun m => vt_xfer (vt m) (rt_core_in m)).
  assert (EQ : occurrences f 0 b = occurrences f 0 a + occurrences f a (b - a)).
  { replace b with (a + (b - a)) at 1 by lia. rewrite occ_app. reflexivity. }
  pose proof (rt_occ_upper f a (b - a)). lia.
Qed.

Lemma rt_HVpos : 1 <= HV.
Proof. unfold HV. destruct ok. assert (1 <= (p_hscan p + 1) * (p_vscan p + 1))%Z by nia. lia. Qed.

Lemma rt_cd_mono : forall a b, a <= b -> c a <= c b.
Proof. intros a b H. apply occ_mono. exact H. Qed.
Lemma rt_cd_S : forall t, c (S t) = c t + if cd t then 1 else 0.
Proof. intros t. reflexivity. Qed.

(** The scan in step with that of VideoOutModel's core, a set on offer, and the last clock in
    which a set was taken. *)
Definition rt_inv (t : nat) : Prop :=
  let k := c t - n0 in
  (exists v, ini_out (ot_ini (st t)) = Some v) /\
  ot_tg (st t) = vt_tg (vt k) /\ ot_dr (st t) = vt_dr (vt k) /\ ot_reads (st t) = vt_reads (vt k) /\
  exists t1 j, t0 <= t1 <= t /\ occurrences (pops mem ra ii) t1 (t - t1) = 0 /\
    let a := cnt (c t1 - n0) in a <= j * HV + 1 /\ (j = 0 \/ j * HV < a).

Lemma rt_E_edge : forall t, t0 <= t -> cd t = true -> E (n0 + (c t - n0)) = t.
Proof.
  intros t T CD. destruct (HE (n0 + (c t - n0))) as [A B]. apply (edge_inj cd); [exact A|exact CD|]. fold (c (E (n0 + (c t - n0)))) (c t). rewrite B.
  pose proof (rt_cd_mono t0 t T). unfold n0. lia.
Qed.

Lemma rt_vt_core : forall t, t0 <= t -> rt_inv t -> cd t = true -> let k := c t - n0 in
  vo_tready (ot_tg (st t)) (vt_vi (ot_vt shift aw (st t)) (ot_ti shift aw (st t) (i t))) = vo_tready (vt_tg (vt k)) (vt_vi (vt k) (rt_core_in k)) /\
  ot_tg (st (S t)) = vt_tg (vt (S k)) /\ ot_dr (st (S t)) = vt_dr (vt (S k)) /\ ot_reads (st (S t)) = vt_reads (vt (S k)).
Proof.
  intros t T ((v0 & I1) & I2 & I3 & I4 & _) CD k. fold k in I2, I3, I4.
  pose proof (rt_E_edge t T CD) as ET. fold k in ET.
  destruct (rw_head_const aw depth pr rt_core_in Hpush Hq k) as [Hh Hv]. pose proof (Hval t v0 T I1) as ->.
  destruct (rw_step_core aw depth (ot_vt shift aw (st t)) (vt k) (ot_ti shift aw (st t) (i t)) (rt_core_in k)) as (A & B & C & DD).
  - exact I2.
  - exact I3.
  - exact I4.
  - unfold vt_valid at 1. cbn [ot_vt vt_q]. rewrite I1. symmetry. exact Hv.
  - unfold vt_head at 1. cbn [ot_vt vt_q]. rewrite I1. symmetry. exact Hh.
  - unfold rt_core_in. cbv zeta. cbn [ot_ti ti_mem]. rewrite ET. reflexivity.
  - unfold rt_core_in. cbv zeta. cbn [ot_ti ti_ret]. rewrite ET. reflexivity.
  - unfold rt_core_in. cbv zeta. cbn [ot_ti ti_ready]. rewrite ET. reflexivity.
  - split; [rewrite A; cbn [ot_vt vt_tg] in *; rewrite I2; reflexivity|]. change (st (S t)) with (rt_step shift aw depth (st t) (i t)). unfold rt_step. cbv zeta. cbn [ot_tg ot_dr ot_reads].
    fold (cd t). rewrite CD. change (vt (S k)) with (rw_step aw depth (vt k) (rt_core_in k)). auto.
Qed.

(** A set is taken at the end of a scan only. *)
Lemma rt_pop_count : forall t, t0 <= t -> rt_inv t -> pops mem ra ii t = true -> let k := c t - n0 in
  cd t = true /\ (exists j, 1 <= j /\ cnt k = j * HV) /\ cnt (S k) = S (cnt k).
Proof.
  intros t T I P k. unfold pops in P. apply andb_prop in P as [P _]. apply andb_prop in P as [CD P].
  change (cd t = true) in CD. split; [exact CD|]. cbn [ii ot_ini_in ini_rdy] in P.
  destruct (rt_vt_core t T I CD) as (V & _). fold k in V. destruct I as (_ & I2 & _). fold k in I2.
  unfold ii, ot_ini_in, ot_rdy in P. cbn [ini_rdy] in P.
  unfold tg_sink_ready in P. apply andb_prop in P as [P1 P2]. rewrite V in P1. rewrite I2 in P2.
  destruct (rw_head_const aw depth pr rt_core_in Hpush Hq k) as [_ Hv]. fold vt in Hv.
  split.
  - pose proof (rw_tg_at aw depth pr rt_core_in ok (fun _ => eq_refl) k) as TG. fold vt in TG. rewrite TG in P2. fold (cnt k) in P2.
    cbn [tg_at t_last] in P2. apply andb_prop in P2 as [P2 P3]. apply Z.leb_le in P2. unfold spec_last in P3. apply Z.eqb_eq in P3. fold p in P3.
    replace (Z.of_nat (cnt k) - 1 + 1)%Z with (Z.of_nat (cnt k)) in P3 by lia.
    assert (PP : (0 < (p_hscan p + 1) * (p_vscan p + 1))%Z) by (pose proof rt_HVpos; unfold HV in *; lia).
    pose proof (Z.div_mod (Z.of_nat (cnt k)) _ (Z.neq_sym _ _ (Z.lt_neq _ _ PP))) as DM. rewrite P3 in DM.
    set (q := (Z.of_nat (cnt k) / _)%Z) in *. exists (Z.to_nat q). assert (0 < q)%Z by nia. split; [lia|].
    apply Nat2Z.inj. rewrite Nat2Z.inj_mul, Z2Nat.id by lia. unfold HV. rewrite Z2Nat.id by lia. lia.
  - unfold cnt. cbn [occurrences]. rewrite Nat.add_0_l.
    assert (X : vt_xfer (vt k) (rt_core_in k) = true).
    { unfold vo_tready in P1. cbn [vt_vi vi_valid] in P1. rewrite Hv in P1. exact P1. }
    rewrite X. lia.
Qed.

Lemma rt_inv_all : forall t, t0 <= t -> rt_inv t.
Proof.
  assert (HM : Z.of_nat (length mem) = (2 ^ 2)%Z) by (rewrite L; reflexivity).
  intros t T. induction T as [|t T I].
  - unfold rt_inv. fold n0. rewrite Nat.sub_diag. destruct Hbase as (A & B & C). rewrite A, B, C.
    destruct (ini_out (ot_ini (st t0))) as [v|] eqn:O; [|congruence].
    split; [exists v; reflexivity|]. do 3 (split; [reflexivity|]). exists t0, 0. split; [lia|]. rewrite Nat.sub_diag. split; [reflexivity|].
    fold n0. rewrite Nat.sub_diag. cbn [cnt occurrences]. lia.
  - assert (CORE : let k := c (S t) - n0 in ot_tg (st (S t)) = vt_tg (vt k) /\ ot_dr (st (S t)) = vt_dr (vt k) /\ ot_reads (st (S t)) = vt_reads (vt k)).
    { cbv zeta. rewrite rt_cd_S. pose proof (rt_cd_mono t0 t T) as M. fold n0 in M. destruct (cd t) eqn:CD.
      - destruct (rt_vt_core t T I CD) as (_ & A). replace (c t + 1 - n0) with (S (c t - n0)) by lia. exact A.
      - rewrite Nat.add_0_r. destruct I as (_ & A & B & C & _). change (st (S t)) with (rt_step shift aw depth (st t) (i t)).
        unfold rt_step. cbv zeta. cbn [ot_tg ot_dr ot_reads]. fold (cd t). rewrite CD. auto. }
    cbv zeta in CORE. destruct CORE as (C1 & C2 & C3).
    destruct (pops mem ra ii t) eqn:P.
    + pose proof (rt_pop_count t T I P) as PC. cbv zeta in PC. destruct PC as (CD & (j & J & CJ) & CS).
      destruct I as (I1 & I2 & I3 & I4 & t1 & j1 & T1 & NP & K1 & K2). cbv zeta in K1, K2.
      pose proof (rt_cd_mono t0 t T) as M0. fold n0 in M0. pose proof (rt_cd_mono t0 t1 ltac:(lia)) as M1. fold n0 in M1.
      pose proof (rt_cd_mono t1 t ltac:(lia)) as M2. pose proof (rt_cnt_le (c t1 - n0) (c t - n0) ltac:(lia)) as [Q1 Q2]. pose proof rt_HVpos as HP.
      assert (JJ : j1 + 1 <= j).
      { destruct K2 as [->|K2]; [lia|]. assert (j1 * HV < j * HV) by lia. destruct (Nat.le_gt_cases j j1) as [LE|]; [|lia].
        exfalso. pose proof (Nat.mul_le_mono_r j j1 HV LE). lia. }
      assert (GAP : HV <= (c t - c t1) + 1) by (pose proof (Nat.mul_le_mono_r (j1 + 1) j HV JJ); lia).
      assert (OFF : exists v, ini_out (ot_ini (st (S t))) = Some v).
      { assert (RD : af_readable (f_st _ 2 mem ra (ini_fi mem ra ii) (S t)) = true).
        { pose proof (pops_occ mem ra ii L t1 (S t) ltac:(lia)) as PO. cbv zeta in PO.
          assert (ONE : occurrences (pops mem ra ii) t1 (S t - t1) = 1).
          { replace (S t - t1) with (t - t1 + 1) by lia. rewrite occ_app, NP. cbn [occurrences].
            replace (t1 + (t - t1) + 0) with t by lia. rewrite P. reflexivity. }
          rewrite ONE in PO.
          assert (EN : forall x, t1 <= x -> enabled_at mem ra ii x = true).
          { intros x X. unfold enabled_at. rewrite <- rt_ini_run. apply Hen. lia. }
          destruct (Nat.eq_dec (c t) (c t1)) as [EQ|NE].
          - exfalso. pose proof (Hsys t t ltac:(lia)) as X. rewrite Nat.sub_diag in X. cbn [occurrences] in X. lia.
          - destruct (HE (c t - 1)) as [E1 E2]. set (v := E (c t - 1)) in *.
            assert (V1 : v < t).
            { destruct (Nat.lt_ge_cases v t) as [|GE]; [assumption|]. pose proof (rt_cd_mono t v GE). lia. }
            assert (V2 : t1 <= v).
            { destruct (Nat.le_gt_cases t1 v) as [|LT]; [assumption|]. pose proof (rt_cd_mono (S v) t1 LT). rewrite rt_cd_S, E1 in H. lia. }
            assert (CV : occurrences cd t1 (v - t1) = c v - c t1).
            { unfold c. replace v with (t1 + (v - t1)) at 2 by lia. rewrite occ_app, Nat.add_0_l. lia. }
            assert (CT : occurrences cd v (S t - v) = 2).
            { assert (c (S t) = c v + occurrences cd v (S t - v)).
              { unfold c. replace (S t) with (v + (S t - v)) at 1 by lia. rewrite occ_app, Nat.add_0_l. reflexivity. }
              rewrite rt_cd_S, CD in H. lia. }
            pose proof (Hsys t1 v V2 ltac:(rewrite CV; lia)) as SY.
            pose proof (two_pushed mem ra ii L t1 v V2 ltac:(intros x X; apply EN; lia) SY) as TP. cbv zeta in TP.
            apply (f_available _ 2 [] mem ra (ini_fi mem ra ii) ltac:(lia) HM v (S t) ltac:(lia)).
            + change (fun v0 => ai_r (ini_fi mem ra ii v0)) with cd. lia.
            + unfold f_C in *. rewrite PO. lia. }
        unfold ini_out. rewrite rt_ini_run, ini_fifo_run. unfold f_st in RD. rewrite RD. eauto. }
      split; [exact OFF|]. split; [exact C1|]. split; [exact C2|]. split; [exact C3|].
      exists (S t), j. split; [lia|]. rewrite Nat.sub_diag. split; [reflexivity|]. cbv zeta. rewrite rt_cd_S, CD.
      replace (c t + 1 - n0) with (S (c t - n0)) by lia. rewrite CS, CJ. lia.
    + destruct I as ((v0 & I1) & I2 & I3 & I4 & t1 & j1 & T1 & NP & K).
      split; [|split; [exact C1|split; [exact C2|split; [exact C3|]]]].
      * exists v0. rewrite rt_ini_run in *. apply (C78_held mem ra ii L t v0 I1). unfold pops in P. rewrite I1, andb_true_r in P. exact P.
      * exists t1, j1. split; [lia|]. split; [|exact K]. replace (S t - t1) with (t - t1 + 1) by lia. rewrite occ_app, NP. cbn [occurrences].
        replace (t1 + (t - t1) + 0) with t by lia. rewrite P. reflexivity.
Qed.

(** At edge [n0 + k] of the output's clock the core is the core of RawModel.v after [k] clocks. *)
Lemma rt_core : forall k, vt_vi (ot_vt shift aw (st (E (n0 + k)))) (ot_ti shift aw (st (E (n0 + k))) (i (E (n0 + k)))) = vt_vi (vt k) (rt_core_in k) /\
  ot_tg (st (E (n0 + k))) = vt_tg (vt k).
Proof.
  intros k. destruct (HE (n0 + k)) as [A B].
  assert (GE : t0 <= E (n0 + k)).
  { destruct (Nat.le_gt_cases t0 (E (n0 + k))) as [|LT]; [assumption|]. pose proof (rt_cd_mono (S (E (n0 + k))) t0 LT) as Q. rewrite rt_cd_S, A, B in Q. unfold n0 in *. lia. }
  destruct (rt_inv_all _ GE) as ((v0 & I1) & I2 & I3 & I4 & _). pose proof (Hval _ v0 GE I1) as ->.
  replace (c (E (n0 + k)) - n0) with k in * by lia.
  destruct (rw_head_const aw depth pr rt_core_in Hpush Hq k) as [Hh Hv]. split; [|exact I2].
  apply (rw_step_core aw depth); [exact I2|exact I3|exact I4| | |reflexivity|reflexivity|reflexivity].
  - unfold vt_valid at 1. cbn [ot_vt vt_q]. rewrite I1. symmetry. exact Hv.
  - unfold vt_head at 1. cbn [ot_vt vt_q]. rewrite I1. symmetry. exact Hh.
Qed.
End Top.
