(** Auxiliary lemmas for OutTopProps: with the registers left alone and the output
    enabled, the parameter FIFO never runs dry, and the core is the core of
    VideoOutModel with a constant parameter set. *)
From Coq Require Import ZArith List Bool Lia Arith.
From Verif Require Import Hdl Trace CdcProofs TimingModel TimingSpec TimingProofs VideoOutModel VideoOutProofs HdmiModel LinkModel
  FifoModel FifoProofs FifoProps PhyModel PhyProps LinkProofs StartupProofs GenlockProps OutTopModel.
Import ListNotations.
Open Scope nat_scope.

(** Two sets enter the FIFO within four sys edges while none is taken. *)
Lemma next_edge : forall (e : nat -> bool) u m c, S c <= occurrences e u m ->
  exists x, u <= x < u + m /\ e x = true /\ occurrences e u (x - u) = c.
Proof.
  intros e u. induction m as [|m IH]; intros c O1; [cbn in O1; lia|]. cbn [occurrences] in O1. destruct (e (u + m)) eqn:E.
  - destruct (Nat.eq_dec (occurrences e u m) c) as [Q|Q].
    + exists (u + m). split; [lia|]. split; [exact E|]. replace (u + m - u) with m by lia. exact Q.
    + destruct (IH c ltac:(lia)) as (x & A & B & C). exists x. split; [lia|]. split; assumption.
  - destruct (IH c ltac:(lia)) as (x & A & B & C). exists x. split; [lia|]. split; assumption.
Qed.

Lemma two_pushed : forall mem ra (i : nat -> ini_in), length mem = 4 -> forall a v, a <= v ->
  (forall x, a <= x < v -> enabled_at mem ra i x = true) -> 4 <= occurrences (fun x => ini_sys (i x)) a (v - a) ->
  let fi := ini_fi mem ra i in
  (f_C _ 2 mem ra fi a + 2 <= f_P _ 2 mem ra fi v)%Z.
Proof.
  intros mem ra i L a v U H O fi. assert (HM : Z.of_nat (length mem) = (2 ^ 2)%Z) by (rewrite L; reflexivity).
  set (e := fun x => ini_sys (i x)) in *.
  destruct (next_edge e a (v - a) 2 ltac:(lia)) as (x3 & X3 & E3 & N3).
  destruct (next_edge e a (v - a) 3 ltac:(lia)) as (x4 & X4 & E4 & N4).
  assert (LT : x3 < x4).
  { destruct (Nat.lt_ge_cases x3 x4) as [|GE]; [assumption|exfalso].
    assert (occurrences e a (x3 - a) >= occurrences e a (x4 - a)); [|lia].
    replace (x3 - a) with ((x4 - a) + (x3 - x4)) by lia. rewrite occ_app. lia. }
  destruct (f_inv_all _ 2 [] mem ra fi ltac:(lia) HM a) as (P0 & P1 & C0 & C1 & []).
  pose proof (f_P_mono _ 2 mem ra fi) as PM.
  assert (WR : forall x, a <= x < v -> e x = true -> 2 <= occurrences e a (x - a) ->
    (f_P _ 2 mem ra fi x < f_C _ 2 mem ra fi a + 2 -> f_P _ 2 mem ra fi (S x) = f_P _ 2 mem ra fi x + 1)%Z).
  { intros x X Ex Ox Px. rewrite f_P_S.
    assert (W : af_writable 2 (f_st _ 2 mem ra fi x) = true).
    { apply (f_room _ 2 [] mem ra fi ltac:(lia) HM a x); [lia|exact Ox|]. change (2 ^ 2)%Z with 4%Z. lia. }
    unfold f_wr. rewrite W. cbn [fi ini_fi ai_w ai_we]. fold (e x). rewrite Ex, H by lia. reflexivity. }
  pose proof (PM a x3 ltac:(lia)). pose proof (PM (S x3) x4 ltac:(lia)). pose proof (PM (S x4) v ltac:(lia)).
  pose proof (PM x3 v ltac:(lia)). pose proof (PM x4 v ltac:(lia)).
  pose proof (WR x3 ltac:(lia) E3 ltac:(lia)). pose proof (WR x4 ltac:(lia) E4 ltac:(lia)). lia.
Qed.

Lemma edge_inj : forall (e : nat -> bool) a b, e a = true -> e b = true -> occurrences e 0 a = occurrences e 0 b -> a = b.
Proof.
  assert (H : forall (e : nat -> bool) a b, e a = true -> a < b -> occurrences e 0 a < occurrences e 0 b).
  { intros e a b A LT. replace b with (a + (1 + (b - a - 1))) by lia. rewrite !occ_app. cbn [occurrences].
    replace (0 + a + 0) with a by lia. rewrite A. lia. }
  intros e a b A B Q. destruct (Nat.lt_trichotomy a b) as [LT|[|LT]]; [|assumption|].
  - pose proof (H e a b A LT). lia.
  - pose proof (H e b a B LT). lia.
Qed.

(** A queue that is always refilled is never empty. *)
Lemma refilled : forall aw depth pr D W (ti : nat -> vt_in), (forall n, ti_push (ti n) = Some pr) ->
  forall n, vt_q (at_ (vt_step aw depth) {| vt_tg := tg_init; vt_dr := D; vt_q := [pr]; vt_reads := W |} ti n) <> [].
Proof.
  intros aw depth pr D W ti H n. set (run := at_ (vt_step aw depth) {| vt_tg := tg_init; vt_dr := D; vt_q := [pr]; vt_reads := W |} ti).
  destruct n as [|n]; [discriminate|].
  change (run (S n)) with (vt_step aw depth (run n) (ti n)).
  unfold vt_step. cbv zeta. cbn [vt_q]. rewrite H. set (q := vt_q (run n)).
  destruct (Nat.ltb_spec (length q) 4).
  - intros E. apply app_eq_nil in E as [_ E]. discriminate.
  - rewrite app_nil_r. destruct q as [|a [|b q]]; cbn in H0; try lia. destruct (_ && _); discriminate.
Qed.

(** One clock depends on the queue only through its head. *)
Lemma vt_step_core : forall aw depth s1 s2 i1 i2, vt_tg s1 = vt_tg s2 -> vt_dr s1 = vt_dr s2 -> vt_reads s1 = vt_reads s2 ->
  vt_valid s1 = vt_valid s2 -> vt_head s1 i1 = vt_head s2 i2 -> ti_mem i1 = ti_mem i2 -> ti_ret i1 = ti_ret i2 ->
  ti_ready i1 = ti_ready i2 ->
  vt_vi s1 i1 = vt_vi s2 i2 /\
  vt_tg (vt_step aw depth s1 i1) = vt_tg (vt_step aw depth s2 i2) /\
  vt_dr (vt_step aw depth s1 i1) = vt_dr (vt_step aw depth s2 i2) /\
  vt_reads (vt_step aw depth s1 i1) = vt_reads (vt_step aw depth s2 i2).
Proof.
  intros aw depth s1 s2 i1 i2 H1 H2 H3 H4 H5 H6 H7 H8. unfold vt_step, vt_vi, vt_di. cbv zeta. cbn [vt_tg vt_dr vt_reads].
  rewrite H1, H2, H3, H4, H5, H6, H7, H8. auto.
Qed.

(** Nor does the address of the picture matter for the scan and the reader. *)
Lemma vt_step_like : forall aw depth s1 s2 i1 i2, vt_tg s1 = vt_tg s2 -> vt_dr s1 = vt_dr s2 -> length (vt_reads s1) = length (vt_reads s2) ->
  vt_valid s1 = vt_valid s2 -> vp_t (vt_head s1 i1) = vp_t (vt_head s2 i2) -> vp_length (vt_head s1 i1) = vp_length (vt_head s2 i2) ->
  ti_mem i1 = ti_mem i2 -> ti_ret i1 = ti_ret i2 -> ti_ready i1 = ti_ready i2 ->
  vo_tready (vt_tg s1) (vt_vi s1 i1) = vo_tready (vt_tg s2) (vt_vi s2 i2) /\
  vt_tg (vt_step aw depth s1 i1) = vt_tg (vt_step aw depth s2 i2) /\
  vt_dr (vt_step aw depth s1 i1) = vt_dr (vt_step aw depth s2 i2) /\
  length (vt_reads (vt_step aw depth s1 i1)) = length (vt_reads (vt_step aw depth s2 i2)).
Proof.
  intros aw depth s1 s2 i1 i2 H1 H2 H3 H4 H5 H5' H6 H7 H8.
  assert (EM : (match vt_reads s1 with [] => true | _ => false end) = (match vt_reads s2 with [] => true | _ => false end)).
  { destruct (vt_reads s1), (vt_reads s2); cbn in H3; congruence. }
  unfold vt_step, vo_step, dr_step, dr_taken, dr_done, dr_addr_valid, vo_dready, vo_tready, vo_valid. cbv zeta.
  cbn [vt_tg vt_dr vt_reads vt_vi vt_di vi_valid vi_p vi_dv vi_ready dri_valid dri_length dri_ready dri_vsync].
  rewrite H1, H2, H4, H5, H5', H6, H7, H8, EM, H3. split; [reflexivity|]. split; [reflexivity|]. split; [reflexivity|].
  rewrite !app_length. f_equal.
  - destruct (_ && _ && _); [|exact H3]. destruct (vt_reads s1), (vt_reads s2); cbn in *; congruence.
  - destruct (_ && _); reflexivity.
Qed.

Section Top.
Variables (shift aw : Z) (depth : nat) (mem : list (list Z)) (ra : Z) (i : nat -> ot_in).
Hypothesis L : length mem = 4.
Let st := ot_run shift aw depth mem ra i.
Let ii (t : nat) : ini_in := ot_ini_in shift aw (st t) (i t).
Let cd t := ot_cd (i t).
Let c t := occurrences cd 0 t.

Lemma ot_ini_run : forall t, ot_ini (st t) = ini_run mem ra ii t.
Proof.
  induction t as [|t IH]; [reflexivity|]. unfold ini_run. cbn [at_]. fold (ini_run mem ra ii t).
  change (st (S t)) with (ot_step shift aw depth (st t) (i t)). unfold ot_step. cbv zeta. cbn [ot_ini]. rewrite IH. reflexivity.
Qed.

(** Before the first set is on offer nothing moves. *)
Lemma ot_idle : forall t, (forall x, x < t -> ini_out (ot_ini (st x)) = None) ->
  ot_tg (st t) = tg_init /\ ot_dr (st t) = dr_init /\ ot_reads (st t) = [].
Proof.
  induction t as [|t IH]; intros H; [auto|].
  destruct IH as (A & B & C); [intros x X; apply H; lia|].
  change (st (S t)) with (ot_step shift aw depth (st t) (i t)). unfold ot_step. cbv zeta. cbn [ot_tg ot_dr ot_reads].
  destruct (ot_cd (i t)); [|auto].
  unfold vt_step, vt_vi, vt_di, ot_vt, vt_valid. cbv zeta. cbn [vt_tg vt_dr vt_reads vt_q]. rewrite (H t) by lia. rewrite A, B, C.
  cbn. rewrite andb_false_r. auto.
Qed.

(** First start: offers come from the registers after [u]. *)
Lemma offer_R : forall u R, (forall x, ini_en (ot_ini (st x)) = (u <=? x)) -> (forall x, u <= x -> ini_regs (ot_ini (st x)) = R) ->
  forall t v, ini_out (ot_ini (st t)) = Some v -> v = R /\ u < t.
Proof.
  intros u R Hen Hregs t v E. rewrite ot_ini_run in E. destruct (ini_offer mem ra ii L t v E) as (A & B & _ & ->).
  set (tau := instant _ _ _) in *. unfold f_wr in B. cbn [ini_fi ai_w ai_we] in B.
  apply andb_prop in B as [_ B]. apply andb_prop in B as [_ B]. unfold enabled_at in B. rewrite <- ot_ini_run, Hen in B.
  apply Nat.leb_le in B. split; [|lia]. unfold regs_at. rewrite <- ot_ini_run. apply Hregs. exact B.
Qed.

(** From here on: the scan is in its reset state at [t0], a set is on offer then, the output is
    enabled from then on, and only sets like [R] are ever on offer; the frame reader is in state [D] and the
    words [W] are on their way from memory. *)
Variables (R : list Z) (t0 : nat) (D : dr_st) (W : list Z).
Hypothesis Hen : forall x, t0 <= x -> ini_en (ot_ini (st x)) = true.
Hypothesis Hlike : forall t v, t0 <= t -> ini_out (ot_ini (st t)) = Some v ->
  vp_t (regs_param shift aw v) = vp_t (regs_param shift aw R) /\ vp_length (regs_param shift aw v) = vp_length (regs_param shift aw R).
Hypothesis Hbase : ot_tg (st t0) = tg_init /\ ot_dr (st t0) = D /\ ot_reads (st t0) = W.
Hypothesis Hoffer : ini_out (ot_ini (st t0)) <> None.

Let pr := regs_param shift aw R.
Let p := vp_t pr.
Hypothesis ok : params_ok p.
Variable E : nat -> nat.
Hypothesis HE : forall n, cd (E n) = true /\ c (E n) = n.
Let HV := Z.to_nat ((p_hscan p + 1) * (p_vscan p + 1)).
Hypothesis Hsys : forall a b, a <= b -> HV <= occurrences cd a (b - a) + 2 -> 4 <= occurrences (fun x => ot_sys (i x)) a (b - a).

Let n0 := c t0.
(** The inputs of the core of VideoOutModel. *)
Definition ot_core_in (k : nat) : vt_in :=
  let t := E (n0 + k) in
  {| ti_push := Some pr; ti_mem := ot_mem (i t); ti_ret := ot_ret (i t); ti_ready := ot_ready (i t); ti_junk := pr |}.
Let vt := at_ (vt_step aw depth) {| vt_tg := tg_init; vt_dr := D; vt_q := [pr]; vt_reads := W |} ot_core_in.
Let cnt k := occurrences (fun m => vt_xfer (vt m) (ot_core_in m)) 0 k.
Let Hpush : forall n q, ti_push (ot_core_in n) = Some q -> q = pr.
Proof. intros n q H. injection H. auto. Qed.
Let Hq : forall n, vt_q (vt n) <> [] := refilled aw depth pr D W ot_core_in (fun _ => eq_refl).

Lemma occ_upper : forall (f : nat -> bool) x m, occurrences f x m <= m.
Proof. clear. intros f x. induction m as [|m IH]; [cbn; lia|]. cbn [occurrences]. destruct (f (x + m)); lia. Qed.
Lemma cnt_le : forall a b, a <= b -> cnt a <= cnt b <= cnt a + (b - a).
Proof.
  intros a b H. unfold cnt. set (f := fun m => vt_xfer (vt m) (ot_core_in m)).
  assert (EQ : occurrences f 0 b = occurrences f 0 a + occurrences f a (b - a)).
  { replace b with (a + (b - a)) at 1 by lia. rewrite occ_app. reflexivity. }
  pose proof (occ_upper f a (b - a)). lia.
Qed.

Lemma HVpos : 1 <= HV.
Proof. unfold HV. destruct ok. assert (1 <= (p_hscan p + 1) * (p_vscan p + 1))%Z by nia. lia. Qed.

Lemma cd_mono : forall a b, a <= b -> c a <= c b.
Proof. intros a b H. apply occ_mono. exact H. Qed.
Lemma cd_S : forall t, c (S t) = c t + if cd t then 1 else 0.
Proof. intros t. reflexivity. Qed.

(** The scan in step with that of VideoOutModel's core, a set on offer, and the last clock in
    which a set was taken. *)
Definition ot_inv (t : nat) : Prop :=
  let k := c t - n0 in
  (exists v, ini_out (ot_ini (st t)) = Some v) /\
  ot_tg (st t) = vt_tg (vt k) /\ ot_dr (st t) = vt_dr (vt k) /\ length (ot_reads (st t)) = length (vt_reads (vt k)) /\
  exists t1 j, t0 <= t1 <= t /\ occurrences (pops mem ra ii) t1 (t - t1) = 0 /\
    let a := cnt (c t1 - n0) in a <= j * HV + 1 /\ (j = 0 \/ j * HV < a).

Lemma E_edge : forall t, t0 <= t -> cd t = true -> E (n0 + (c t - n0)) = t.
Proof.
  intros t T CD. destruct (HE (n0 + (c t - n0))) as [A B]. apply (edge_inj cd); [exact A|exact CD|]. fold (c (E (n0 + (c t - n0)))) (c t). rewrite B.
  pose proof (cd_mono t0 t T). unfold n0. lia.
Qed.

Lemma ot_vt_core : forall t, t0 <= t -> ot_inv t -> cd t = true -> let k := c t - n0 in
  vo_tready (ot_tg (st t)) (vt_vi (ot_vt shift aw (st t)) (ot_ti shift aw (st t) (i t))) = vo_tready (vt_tg (vt k)) (vt_vi (vt k) (ot_core_in k)) /\
  ot_tg (st (S t)) = vt_tg (vt (S k)) /\ ot_dr (st (S t)) = vt_dr (vt (S k)) /\ length (ot_reads (st (S t))) = length (vt_reads (vt (S k))).
Proof.
  intros t T ((v0 & I1) & I2 & I3 & I4 & _) CD k. fold k in I2, I3, I4.
  pose proof (E_edge t T CD) as ET. fold k in ET.
  destruct (vt_head_const aw depth pr ot_core_in Hpush D W Hq k) as [Hh Hv]. destruct (Hlike t v0 T I1) as [L1 L2].
  destruct (vt_step_like aw depth (ot_vt shift aw (st t)) (vt k) (ot_ti shift aw (st t) (i t)) (ot_core_in k)) as (A & B & C & DD).
  - exact I2.
  - exact I3.
  - exact I4.
  - unfold vt_valid at 1. cbn [ot_vt vt_q]. rewrite I1. symmetry. exact Hv.
  - unfold vt_head at 1. cbn [ot_vt vt_q]. rewrite I1. etransitivity; [exact L1|]. symmetry. exact (f_equal vp_t Hh).
  - unfold vt_head at 1. cbn [ot_vt vt_q]. rewrite I1. etransitivity; [exact L2|]. symmetry. exact (f_equal vp_length Hh).
  - cbn [ot_ti ot_core_in ti_mem]. unfold ot_core_in. cbv zeta. cbn [ti_mem]. rewrite ET. reflexivity.
  - unfold ot_core_in. cbv zeta. cbn [ot_ti ti_ret]. rewrite ET. reflexivity.
  - unfold ot_core_in. cbv zeta. cbn [ot_ti ti_ready]. rewrite ET. reflexivity.
  - split; [exact A|]. change (st (S t)) with (ot_step shift aw depth (st t) (i t)). unfold ot_step. cbv zeta. cbn [ot_tg ot_dr ot_reads].
    fold (cd t). rewrite CD. change (vt (S k)) with (vt_step aw depth (vt k) (ot_core_in k)). auto.
Qed.

(** A set is taken at the end of a scan only. *)
Lemma pop_count : forall t, t0 <= t -> ot_inv t -> pops mem ra ii t = true -> let k := c t - n0 in
  cd t = true /\ (exists j, 1 <= j /\ cnt k = j * HV) /\ cnt (S k) = S (cnt k).
Proof.
  intros t T I P k. unfold pops in P. apply andb_prop in P as [P _]. apply andb_prop in P as [CD P].
  change (cd t = true) in CD. split; [exact CD|]. cbn [ii ot_ini_in ini_rdy] in P.
  destruct (ot_vt_core t T I CD) as (V & _). fold k in V. destruct I as (_ & I2 & _). fold k in I2.
  unfold ii, ot_ini_in, ot_rdy in P. cbn [ini_rdy] in P.
  unfold tg_sink_ready in P. apply andb_prop in P as [P1 P2]. rewrite V in P1. rewrite I2 in P2.
  destruct (vt_head_const aw depth pr ot_core_in Hpush D W Hq k) as [_ Hv]. fold vt in Hv.
  split.
  - pose proof (vt_tg_at aw depth pr ot_core_in ok Hpush D W Hq k) as TG. fold vt in TG. rewrite TG in P2. fold (cnt k) in P2.
    cbn [tg_at t_last] in P2. apply andb_prop in P2 as [P2 P3]. apply Z.leb_le in P2. unfold spec_last in P3. apply Z.eqb_eq in P3. fold p in P3.
    replace (Z.of_nat (cnt k) - 1 + 1)%Z with (Z.of_nat (cnt k)) in P3 by lia.
    assert (PP : (0 < (p_hscan p + 1) * (p_vscan p + 1))%Z) by (pose proof HVpos; unfold HV in *; lia).
    pose proof (Z.div_mod (Z.of_nat (cnt k)) _ (Z.neq_sym _ _ (Z.lt_neq _ _ PP))) as DM. rewrite P3 in DM.
    set (q := (Z.of_nat (cnt k) / _)%Z) in *. exists (Z.to_nat q). assert (0 < q)%Z by nia. split; [lia|].
    apply Nat2Z.inj. rewrite Nat2Z.inj_mul, Z2Nat.id by lia. unfold HV. rewrite Z2Nat.id by lia. lia.
  - unfold cnt. cbn [occurrences]. rewrite Nat.add_0_l.
    assert (X : vt_xfer (vt k) (ot_core_in k) = true).
    { unfold vo_tready in P1. cbn [vt_vi vi_valid] in P1. rewrite Hv in P1. exact P1. }
    rewrite X. lia.
Qed.

Lemma ot_inv_all : forall t, t0 <= t -> ot_inv t.
Proof.
  assert (HM : Z.of_nat (length mem) = (2 ^ 2)%Z) by (rewrite L; reflexivity).
  intros t T. induction T as [|t T I].
  - unfold ot_inv. fold n0. rewrite Nat.sub_diag. destruct Hbase as (A & B & C). rewrite A, B, C.
    destruct (ini_out (ot_ini (st t0))) as [v|] eqn:O; [|congruence].
    split; [exists v; reflexivity|]. do 3 (split; [reflexivity|]). exists t0, 0. split; [lia|]. rewrite Nat.sub_diag. split; [reflexivity|].
    fold n0. rewrite Nat.sub_diag. cbn [cnt occurrences]. lia.
  - assert (CORE : let k := c (S t) - n0 in ot_tg (st (S t)) = vt_tg (vt k) /\ ot_dr (st (S t)) = vt_dr (vt k) /\ length (ot_reads (st (S t))) = length (vt_reads (vt k))).
    { cbv zeta. rewrite cd_S. pose proof (cd_mono t0 t T) as M. fold n0 in M. destruct (cd t) eqn:CD.
      - destruct (ot_vt_core t T I CD) as (_ & A). replace (c t + 1 - n0) with (S (c t - n0)) by lia. exact A.
      - rewrite Nat.add_0_r. destruct I as (_ & A & B & C & _). change (st (S t)) with (ot_step shift aw depth (st t) (i t)).
        unfold ot_step. cbv zeta. cbn [ot_tg ot_dr ot_reads]. fold (cd t). rewrite CD. auto. }
    cbv zeta in CORE. destruct CORE as (C1 & C2 & C3).
    destruct (pops mem ra ii t) eqn:P.
    + pose proof (pop_count t T I P) as PC. cbv zeta in PC. destruct PC as (CD & (j & J & CJ) & CS).
      destruct I as (I1 & I2 & I3 & I4 & t1 & j1 & T1 & NP & K1 & K2). cbv zeta in K1, K2.
      pose proof (cd_mono t0 t T) as M0. fold n0 in M0. pose proof (cd_mono t0 t1 ltac:(lia)) as M1. fold n0 in M1.
      pose proof (cd_mono t1 t ltac:(lia)) as M2. pose proof (cnt_le (c t1 - n0) (c t - n0) ltac:(lia)) as [Q1 Q2]. pose proof HVpos as HP.
      assert (JJ : j1 + 1 <= j).
      { destruct K2 as [->|K2]; [lia|]. assert (j1 * HV < j * HV) by lia. destruct (Nat.le_gt_cases j j1) as [LE|]; [|lia].
        exfalso. pose proof (Nat.mul_le_mono_r j j1 HV LE). lia. }
      assert (GAP : HV <= (c t - c t1) + 1) by (pose proof (Nat.mul_le_mono_r (j1 + 1) j HV JJ); lia).
      assert (OFF : exists v, ini_out (ot_ini (st (S t))) = Some v).
      { assert (RD : af_readable (f_st _ 2 mem ra (ini_fi mem ra ii) (S t)) = true).
        { pose proof (pops_occ mem ra ii L t1 (S t) ltac:(lia)) as PO. cbv zeta in PO.
          assert (ONE : occurrences (pops mem ra ii) t1 (S t - t1) = 1).
          { replace (S t - t1) with (t - t1 + 1) by lia. rewrite occ_app, NP. cbn [occurrences].
            replace (t1 + (t - t1) + 0) with t by lia. rewrite P. reflexivity. }
          rewrite ONE in PO.
          assert (EN : forall x, t1 <= x -> enabled_at mem ra ii x = true).
          { intros x X. unfold enabled_at. rewrite <- ot_ini_run. apply Hen. lia. }
          destruct (Nat.eq_dec (c t) (c t1)) as [EQ|NE].
          - exfalso. pose proof (Hsys t t ltac:(lia)) as X. rewrite Nat.sub_diag in X. cbn [occurrences] in X. lia.
          - destruct (HE (c t - 1)) as [E1 E2]. set (v := E (c t - 1)) in *.
            assert (V1 : v < t).
            { destruct (Nat.lt_ge_cases v t) as [|GE]; [assumption|]. pose proof (cd_mono t v GE). lia. }
            assert (V2 : t1 <= v).
            { destruct (Nat.le_gt_cases t1 v) as [|LT]; [assumption|]. pose proof (cd_mono (S v) t1 LT). rewrite cd_S, E1 in H. lia. }
            assert (CV : occurrences cd t1 (v - t1) = c v - c t1).
            { unfold c. replace v with (t1 + (v - t1)) at 2 by lia. rewrite occ_app, Nat.add_0_l. lia. }
            assert (CT : occurrences cd v (S t - v) = 2).
            { assert (c (S t) = c v + occurrences cd v (S t - v)).
              { unfold c. replace (S t) with (v + (S t - v)) at 1 by lia. rewrite occ_app, Nat.add_0_l. reflexivity. }
              rewrite cd_S, CD in H. lia. }
            pose proof (Hsys t1 v V2 ltac:(rewrite CV; lia)) as SY.
            pose proof (two_pushed mem ra ii L t1 v V2 ltac:(intros x X; apply EN; lia) SY) as TP. cbv zeta in TP.
            apply (f_available _ 2 [] mem ra (ini_fi mem ra ii) ltac:(lia) HM v (S t) ltac:(lia)).
            + change (fun v0 => ai_r (ini_fi mem ra ii v0)) with cd. lia.
            + unfold f_C in *. rewrite PO. lia. }
        unfold ini_out. rewrite ot_ini_run, ini_fifo_run. unfold f_st in RD. rewrite RD. eauto. }
      split; [exact OFF|]. split; [exact C1|]. split; [exact C2|]. split; [exact C3|].
      exists (S t), j. split; [lia|]. rewrite Nat.sub_diag. split; [reflexivity|]. cbv zeta. rewrite cd_S, CD.
      replace (c t + 1 - n0) with (S (c t - n0)) by lia. rewrite CS, CJ. lia.
    + destruct I as ((v0 & I1) & I2 & I3 & I4 & t1 & j1 & T1 & NP & K).
      split; [|split; [exact C1|split; [exact C2|split; [exact C3|]]]].
      * exists v0. rewrite ot_ini_run in *. apply (C78_held mem ra ii L t v0 I1). unfold pops in P. rewrite I1, andb_true_r in P. exact P.
      * exists t1, j1. split; [lia|]. split; [|exact K]. replace (S t - t1) with (t - t1 + 1) by lia. rewrite occ_app, NP. cbn [occurrences].
        replace (t1 + (t - t1) + 0) with t by lia. rewrite P. reflexivity.
Qed.

(** From here on only [R] is ever on offer. *)
Hypothesis Hval : forall t v, t0 <= t -> ini_out (ot_ini (st t)) = Some v -> v = R.
Lemma ot_same : forall t, t0 <= t -> let k := c t - n0 in
  ot_tg (st t) = vt_tg (vt k) /\ ot_dr (st t) = vt_dr (vt k) /\ ot_reads (st t) = vt_reads (vt k).
Proof.
  intros t T. cbv zeta. induction T as [|t T (I2 & I3 & I4)].
  - fold n0. rewrite Nat.sub_diag. exact Hbase.
  - destruct (ot_inv_all t T) as ((v0 & I1) & _). pose proof (Hval t v0 T I1) as ->.
    rewrite cd_S. pose proof (cd_mono t0 t T) as M. fold n0 in M. destruct (cd t) eqn:CD.
    + set (k := c t - n0) in *. replace (c t + 1 - n0) with (S k) by lia.
      pose proof (E_edge t T CD) as ET. fold k in ET.
      destruct (vt_head_const aw depth pr ot_core_in Hpush D W Hq k) as [Hh Hv].
      destruct (vt_step_core aw depth (ot_vt shift aw (st t)) (vt k) (ot_ti shift aw (st t) (i t)) (ot_core_in k)) as (_ & B & C & DD).
      * exact I2.
      * exact I3.
      * exact I4.
      * unfold vt_valid at 1. cbn [ot_vt vt_q]. rewrite I1. symmetry. exact Hv.
      * unfold vt_head at 1. cbn [ot_vt vt_q]. rewrite I1. symmetry. exact Hh.
      * unfold ot_core_in. cbv zeta. cbn [ot_ti ti_mem]. rewrite ET. reflexivity.
      * unfold ot_core_in. cbv zeta. cbn [ot_ti ti_ret]. rewrite ET. reflexivity.
      * unfold ot_core_in. cbv zeta. cbn [ot_ti ti_ready]. rewrite ET. reflexivity.
      * change (st (S t)) with (ot_step shift aw depth (st t) (i t)). unfold ot_step. cbv zeta. cbn [ot_tg ot_dr ot_reads].
        fold (cd t). rewrite CD. change (vt (S k)) with (vt_step aw depth (vt k) (ot_core_in k)). auto.
    + rewrite Nat.add_0_r. change (st (S t)) with (ot_step shift aw depth (st t) (i t)).
      unfold ot_step. cbv zeta. cbn [ot_tg ot_dr ot_reads]. fold (cd t). rewrite CD. auto.
Qed.

Variables (M : Z -> Z) (junk : nat -> Z).
Let o n := ot_px shift aw M (junk n) (st (E n)) (i (E n)).
Let dv n := ot_dv shift aw (st (E n)) (i (E n)).

Lemma E_after : forall n, n0 <= n <-> t0 <= E n.
Proof.
  intros n. destruct (HE n) as [A B]. split; intros H.
  - destruct (Nat.le_gt_cases t0 (E n)) as [|LT]; [assumption|]. pose proof (cd_mono (S (E n)) t0 LT) as Q. rewrite cd_S, A, B in Q. unfold n0 in H. lia.
  - pose proof (cd_mono t0 (E n) H) as Q. unfold n0. lia.
Qed.

Lemma o_blank : (forall x, x < t0 -> ini_out (ot_ini (st x)) = None) ->
  forall n, n < n0 -> px_de (o n) = false /\ px_hs (o n) = false /\ px_vs (o n) = false.
Proof.
  intros Hbefore n H. assert (LT : E n < t0) by (pose proof (E_after n); lia).
  unfold o, ot_px, vt_px. cbv zeta. cbn [tx_px px_de px_hs px_vs ot_vt vt_tg].
  destruct (ot_idle (E n) ltac:(intros x X; apply Hbefore; lia)) as (-> & _). unfold tg_de. cbn [tg_init t_hact t_vact t_hs t_vs andb].
  rewrite andb_false_r. auto.
Qed.

Lemma o_core : forall k, o (n0 + k) = vt_px M (junk (n0 + k)) (vt k) (ot_core_in k) /\ dv (n0 + k) = vi_dv (vt_vi (vt k) (ot_core_in k)).
Proof.
  intros k. assert (GE : t0 <= E (n0 + k)) by (apply E_after; lia). destruct (HE (n0 + k)) as [A B].
  pose proof (ot_same _ GE) as (I2 & I3 & I4). destruct (ot_inv_all _ GE) as ((v0 & I1) & _). pose proof (Hval _ v0 GE I1) as ->.
  replace (c (E (n0 + k)) - n0) with k in * by lia.
  destruct (vt_head_const aw depth pr ot_core_in Hpush D W Hq k) as [Hh Hv].
  assert (V : vt_vi (ot_vt shift aw (st (E (n0 + k)))) (ot_ti shift aw (st (E (n0 + k))) (i (E (n0 + k)))) = vt_vi (vt k) (ot_core_in k)).
  { apply (vt_step_core aw depth); [exact I2|exact I3|exact I4| | |reflexivity|reflexivity|reflexivity].
    - unfold vt_valid at 1. cbn [ot_vt vt_q]. rewrite I1. symmetry. exact Hv.
    - unfold vt_head at 1. cbn [ot_vt vt_q]. rewrite I1. symmetry. exact Hh. }
  split; [|unfold dv, ot_dv; rewrite V; reflexivity].
  unfold o, ot_px, vt_px. cbv zeta. rewrite V. cbn [ot_vt vt_tg]. rewrite I2. reflexivity.
Qed.

Hypothesis Hready : forall x, ot_ready (i x) = true.
Hypothesis Haw : (0 <= aw)%Z.
Hypothesis Hlen : (0 < vp_length pr <= 2 ^ aw)%Z.
Variables (X : nat) (c0 : Z).
Hypothesis Hc0 : (0 <= c0)%Z.
Hypothesis HD : reader_at aw pr D X c0.
Let w q := M (wordat aw pr (W ++ map (fun j => trunc aw (vp_base pr + (2 ^ aw - Z.of_nat X + Z.of_nat j))) (seq 0 X)) c0 q).
Let dvk k := dv (n0 + k).
Let ok_stream := uf_stream p w dvk (fun k => junk (n0 + k)).

Lemma o_uf : forall k, o (n0 + k) = ok_stream k.
Proof.
  intros k. destruct (o_core k) as [A _]. etransitivity; [exact A|].
  etransitivity; [exact (vt_is_uf aw depth pr ot_core_in Haw Hlen ok Hpush D W X c0 Hc0 HD Hq (fun n => Hready _) M (fun k => junk (n0 + k)) k)|].
  unfold ok_stream, uf_stream. cbv zeta.
  assert (EX : forall m, vs_run false w (uf_in p dvk) m = vs_run false w (uf_in p (fun n => vi_dv (vt_vi (vt n) (ot_core_in n)))) m).
  { intros m. apply at_ext. intros x. unfold uf_in, dvk. destruct (o_core x) as [_ ->]. reflexivity. }
  fold p w. rewrite EX. unfold dvk. destruct (o_core k) as [_ ->]. reflexivity.
Qed.

Lemma o_underflows : forall k, underflows o dv (n0 + k) = underflows o dv n0 + underflows ok_stream dvk k.
Proof.
  intros k. unfold underflows. rewrite occ_app. f_equal. rewrite Nat.add_0_l.
  induction k as [|k IH]; [reflexivity|]. cbn [occurrences]. rewrite IH, o_uf. rewrite Nat.add_0_l. reflexivity.
Qed.
End Top.
