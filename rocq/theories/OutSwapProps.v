(** C113: software moves the picture while the output runs (double buffering). *)
From Coq Require Import ZArith List Bool Lia Arith.
From Verif Require Import Hdl Trace CdcProofs TimingModel TimingSpec TimingProofs VideoOutModel VideoOutProofs
  HdmiModel LinkModel LinkProps FifoModel FifoProofs FifoProps PhyModel PhyProps OutTopModel OutTopProofs OutTopProps TearProps.
Import ListNotations.
Open Scope Z_scope.

(** The output is enabled at [u] and stays enabled; from [u] on the registers hold some picture
    address and, for ever, the mode [p] and the length of one picture; [t0] is the first instant with
    a set at the output of the FIFO. *)
Definition enabled_moving (shift aw : Z) (depth : nat) (mem : list (list Z)) (ra : Z) (i : nat -> ot_in) (u : nat) (p : fparam) (t0 : nat) : Prop :=
  let s x := ot_ini (ot_run shift aw depth mem ra i x) in
  (forall x, ini_en (s x) = (u <=? x)%nat) /\
  (forall x, (u <= x)%nat -> timing_of (ini_regs (s x)) = p /\ nth 9 (ini_regs (s x)) 0 / 2 ^ shift = p_hres p * p_vres p) /\
  ini_out (s t0) <> None /\ (forall x, (x < t0)%nat -> ini_out (s x) = None).

Section Swap.
Variables (shift aw : Z) (depth : nat) (mem : list (list Z)) (ra : Z) (i : nat -> ot_in).
Hypothesis Haw : 0 <= aw.
Hypothesis L : length mem = 4%nat.
Variables (p : fparam) (t0 : nat).
Let st := ot_run shift aw depth mem ra i.
Let off t := ini_out (ot_ini (st t)).
Let N := p_hres p * p_vres p.
Let HV := (p_hscan p + 1) * (p_vscan p + 1).
Hypothesis Hen : forall x, (t0 <= x)%nat -> ini_en (ot_ini (st x)) = true.
Hypothesis Hlike : forall t v, (t0 <= t)%nat -> off t = Some v -> timing_of v = p /\ nth 9 v 0 / 2 ^ shift = N.
Hypothesis Hbase : ot_tg (st t0) = tg_init /\ ot_dr (st t0) = dr_init /\ ot_reads (st t0) = [].
Hypothesis Hoffer : off t0 <> None.
Hypothesis ok : params_ok p.
Hypothesis Hpix : 0 < N < 2 ^ aw.
Hypothesis Hdepth : Z.of_nat depth <= N.
Variable E : nat -> nat.
Hypothesis HE : clocks i HV E.
Hypothesis Hready : forall x, ot_ready (i x) = true.
Let cd t := ot_cd (i t).
Let c t := occurrences cd 0 t.
Let n0 := c t0.
Let ii (t : nat) : ini_in := ot_ini_in shift aw (st t) (i t).

Lemma sw_param : forall v, timing_of v = p /\ nth 9 v 0 / 2 ^ shift = N -> vp_t (regs_param shift aw v) = p /\ vp_length (regs_param shift aw v) = N.
Proof.
  intros v [A B]. split; [exact A|]. unfold regs_param, dr_words. cbn [vp_length]. rewrite B. unfold trunc. apply Z.mod_small. lia.
Qed.
Lemma sw_offered : forall t, (t0 <= t)%nat -> exists v, off t = Some v /\ timing_of v = p /\ nth 9 v 0 / 2 ^ shift = N.
Proof.
  intros t T. destruct (off t0) as [R|] eqn:O0; [|congruence]. destruct (sw_param R (Hlike t0 R (le_n _) O0)) as [P1 P2]. destruct HE as [HE1 HE2].
  assert (O1 : off t0 <> None) by congruence.
  destruct (ot_inv_all shift aw depth mem ra i L R t0 dr_init [] Hen) with (E := E) (t := t) as ((v & V) & _).
  - intros x v X O. destruct (sw_param v (Hlike x v X O)) as [Q1 Q2]. rewrite P1, P2. auto.
  - exact Hbase.
  - exact O1.
  - rewrite P1. exact ok.
  - exact HE1.
  - intros a b AB X. apply HE2; [exact AB|]. rewrite P1 in X. fold HV in X. lia.
  - exact T.
  - exists v. split; [exact V|]. exact (Hlike t v T V).
Qed.

Lemma sw_mono : forall a b, (a <= b)%nat -> (c a <= c b)%nat.
Proof. intros a b H. apply occ_mono. exact H. Qed.
Lemma sw_S : forall t, c (S t) = (c t + if cd t then 1 else 0)%nat.
Proof. reflexivity. Qed.
Lemma sw_E : forall n, cd (E n) = true /\ c (E n) = n.
Proof. exact (proj1 HE). Qed.
Lemma sw_after : forall n, (n0 <= n)%nat -> (t0 <= E n)%nat.
Proof.
  intros n H. destruct (sw_E n) as [A B]. destruct (Nat.le_gt_cases t0 (E n)) as [|LT]; [assumption|].
  pose proof (sw_mono (S (E n)) t0 LT) as Q. rewrite sw_S, A, B in Q. unfold n0 in H. lia.
Qed.
Lemma sw_next : forall n, (S (E n) <= E (S n))%nat.
Proof.
  intros n. destruct (sw_E n) as [A B]. destruct (sw_E (S n)) as [A' B'].
  destruct (Nat.le_gt_cases (S (E n)) (E (S n))) as [|LT]; [assumption|]. pose proof (sw_mono (E (S n)) (E n) ltac:(lia)). lia.
Qed.
Lemma sw_lt : forall a b, (a < b)%nat -> (E a < E b)%nat.
Proof. intros a b H. induction H as [|b H IH]; [exact (sw_next a)|]. pose proof (sw_next b). lia. Qed.

(** Without an edge of the output's clock nothing changes there. *)
Lemma sw_held : forall t v, off t = Some v -> pops mem ra ii t = false -> off (S t) = Some v.
Proof.
  intros t v O P. unfold off in *. rewrite (ot_ini_run shift aw depth mem ra i) in O |- *. apply (C78_held mem ra ii L t v O).
  unfold pops in P. change (ini_out (ini_run mem ra ii t) = Some v) in O. rewrite O, andb_true_r in P. exact P.
Qed.
Lemma sw_still : forall a b, (t0 <= a)%nat -> (a <= b)%nat -> c a = c b ->
  ot_tg (st b) = ot_tg (st a) /\ ot_dr (st b) = ot_dr (st a) /\ ot_reads (st b) = ot_reads (st a) /\ off b = off a.
Proof.
  intros a b T AB. induction AB as [|b AB IH]; [auto|]. intros C. pose proof (sw_mono a b AB) as M1. rewrite sw_S in C.
  destruct (cd b) eqn:CD; [lia|]. destruct IH as (I1 & I2 & I3 & I4); [lia|].
  assert (S1 : ot_tg (st (S b)) = ot_tg (st b) /\ ot_dr (st (S b)) = ot_dr (st b) /\ ot_reads (st (S b)) = ot_reads (st b)).
  { change (st (S b)) with (ot_step shift aw depth (st b) (i b)). unfold ot_step. cbv zeta. cbn [ot_tg ot_dr ot_reads]. fold (cd b). rewrite CD. auto. }
  destruct S1 as (-> & -> & ->). do 3 (split; [assumption|]). rewrite <- I4.
  destruct (sw_offered b ltac:(lia)) as (v & V & _). rewrite V. apply sw_held; [exact V|]. unfold pops. cbn [ii ot_ini_in ini_cd]. fold (cd b). rewrite CD. reflexivity.
Qed.

(** The core, clock by clock. *)
Let sT k := ot_vt shift aw (st (E (n0 + k))).
Let iT k := ot_ti shift aw (st (E (n0 + k))) (i (E (n0 + k))).
Lemma sw_H0 : vt_tg (sT 0) = tg_init /\ vt_dr (sT 0) = dr_init /\ vt_reads (sT 0) = [].
Proof.
  unfold sT. rewrite Nat.add_0_r. cbn [ot_vt vt_tg vt_dr vt_reads]. destruct (sw_E n0) as [_ B].
  destruct (sw_still t0 (E n0) (le_n _) (sw_after n0 (le_n _)) ltac:(rewrite B; reflexivity)) as (-> & -> & -> & _). exact Hbase.
Qed.
Lemma sw_link : forall k, let t := E (n0 + k) in
  ot_tg (st (E (n0 + S k))) = ot_tg (st (S t)) /\ ot_dr (st (E (n0 + S k))) = ot_dr (st (S t)) /\ ot_reads (st (E (n0 + S k))) = ot_reads (st (S t)) /\
  off (E (n0 + S k)) = off (S t).
Proof.
  intros k t. destruct (sw_E (n0 + k)) as [A B]. destruct (sw_E (n0 + S k)) as [_ B'].
  pose proof (sw_after (n0 + k) ltac:(lia)) as T. replace (n0 + S k)%nat with (S (n0 + k)) in * by lia.
  apply sw_still; [unfold t; lia|apply sw_next|]. unfold t. rewrite sw_S, A, B, B'. lia.
Qed.
Lemma sw_HS : forall k, vt_tg (sT (S k)) = vt_tg (vt_step aw depth (sT k) (iT k)) /\
  vt_dr (sT (S k)) = vt_dr (vt_step aw depth (sT k) (iT k)) /\ vt_reads (sT (S k)) = vt_reads (vt_step aw depth (sT k) (iT k)).
Proof.
  intros k. destruct (sw_link k) as (A & B & C & _). unfold sT at 1 3 5. cbn [ot_vt vt_tg vt_dr vt_reads]. rewrite A, B, C.
  change (st (S (E (n0 + k)))) with (ot_step shift aw depth (st (E (n0 + k))) (i (E (n0 + k)))). unfold ot_step. cbv zeta. cbn [ot_tg ot_dr ot_reads].
  destruct (sw_E (n0 + k)) as [CD _]. unfold cd in CD. rewrite CD. auto.
Qed.
Lemma sw_head : forall k, exists v, off (E (n0 + k)) = Some v /\ timing_of v = p /\ nth 9 v 0 / 2 ^ shift = N /\ vt_head (sT k) (iT k) = regs_param shift aw v /\ vt_valid (sT k) = true.
Proof.
  intros k. destruct (sw_offered (E (n0 + k)) (sw_after (n0 + k) ltac:(lia))) as (v & V & A & B). exists v. split; [exact V|]. do 2 (split; [assumption|]).
  unfold vt_head, vt_valid, sT, ot_vt. cbn [vt_q]. unfold off in V. rewrite V. auto.
Qed.
Lemma sw_thead : forall k, vp_t (vt_head (sT k) (iT k)) = p /\ vp_length (vt_head (sT k) (iT k)) = N /\ vt_valid (sT k) = true.
Proof. intros k. destruct (sw_head k) as (v & _ & A & B & -> & C). destruct (sw_param v (conj A B)). auto. Qed.
Lemma sw_pop : forall k, pops mem ra ii (E (n0 + k)) = vt_valid (sT k) && tg_sink_ready (vo_tready (vt_tg (sT k)) (vt_vi (sT k) (iT k))) (vt_tg (sT k)).
Proof.
  intros k. unfold pops. rewrite <- (ot_ini_run shift aw depth mem ra i). fold st. destruct (sw_E (n0 + k)) as [CD _]. unfold cd in CD.
  cbn [ii ot_ini_in ini_cd ini_rdy]. rewrite CD. cbn [andb]. destruct (sw_head k) as (v & V & _ & _ & _ & ->). unfold off in V. rewrite V, andb_true_r. reflexivity.
Qed.
Lemma sw_keep : forall k, pops mem ra ii (E (n0 + k)) = false -> off (E (n0 + S k)) = off (E (n0 + k)).
Proof.
  intros k P. destruct (sw_link k) as (_ & _ & _ & ->). destruct (sw_head k) as (v & V & _). rewrite V. apply sw_held; assumption.
Qed.
Lemma sw_tkeep : forall k, vt_valid (sT k) && tg_sink_ready (vo_tready (vt_tg (sT k)) (vt_vi (sT k) (iT k))) (vt_tg (sT k)) = false ->
  vp_base (vt_head (sT (S k)) (iT (S k))) = vp_base (vt_head (sT k) (iT k)).
Proof.
  intros k P. rewrite <- sw_pop in P. pose proof (sw_keep k P) as K.
  destruct (sw_head k) as (v & V & _ & _ & -> & _). destruct (sw_head (S k)) as (v' & V' & _ & _ & -> & _). congruence.
Qed.

Let acc k := occurrences (fun m => vt_xfer (sT m) (iT m)) 0 k.
Let Hlen : 0 < N <= 2 ^ aw := conj (proj1 Hpix) (Z.lt_le_incl _ _ (proj2 Hpix)).
Lemma sw_tg : forall k, vt_tg (sT k) = tg_at p (Z.of_nat (acc k)).
Proof. exact (tear_tg aw depth p N sT iT ok sw_H0 sw_HS sw_thead). Qed.
Lemma sw_accS : forall k, acc (S k) = (acc k + if vt_xfer (sT k) (iT k) then 1 else 0)%nat.
Proof. reflexivity. Qed.
Lemma sw_HV : 0 < HV.
Proof. unfold HV. destruct ok. nia. Qed.

(** A set is taken at the end of every frame. *)
Lemma sw_pops : forall k j, 1 <= j -> Z.of_nat (acc k) = j * HV -> vt_xfer (sT k) (iT k) = true -> pops mem ra ii (E (n0 + k)) = true.
Proof.
  intros k j J A X. rewrite sw_pop. destruct (sw_thead k) as (_ & _ & V). rewrite V. cbn [andb]. unfold tg_sink_ready. rewrite sw_tg at 2.
  apply andb_true_iff. split.
  - unfold vo_tready. cbn [vt_vi vi_valid]. rewrite V. exact X.
  - pose proof sw_HV. cbn [tg_at t_last]. apply andb_true_iff. split; [apply Z.leb_le; nia|]. unfold spec_last. apply Z.eqb_eq.
    replace (Z.of_nat (acc k) - 1 + 1) with (j * HV) by lia. apply Z.mod_mul. fold HV. lia.
Qed.
Lemma sw_count : forall f1 k1, 0 <= f1 -> Z.of_nat (acc k1) <= (f1 + 1) * HV -> forall j k, (f1 + Z.of_nat j) * HV < Z.of_nat (acc k) -> (k1 <= k)%nat ->
  (j <= occurrences (pops mem ra ii) (E (n0 + k1)) (E (n0 + k) - E (n0 + k1)))%nat.
Proof.
  intros f1 k1 F1 A1. pose proof sw_HV as HP. induction j as [|j IH]; intros k A K; [lia|].
  destruct (TearProps.acc_reach aw p sT iT k (Z.to_nat ((f1 + Z.of_nat (S j)) * HV)) ltac:(change (Z.to_nat ((f1 + Z.of_nat (S j)) * HV) < acc k)%nat; lia)) as (u & U1 & U2 & U3).
  fold (acc u) in U2.
  assert (UA : Z.of_nat (acc u) = (f1 + Z.of_nat (S j)) * HV) by (rewrite U2; apply Z2Nat.id; nia).
  assert (KU : (k1 <= u)%nat).
  { destruct (Nat.le_gt_cases k1 u) as [|LT]; [assumption|exfalso].
    assert (AS : (acc (S u) <= acc k1)%nat) by (apply (occ_mono (fun m => vt_xfer (sT m) (iT m))); lia).
    rewrite sw_accS, U3 in AS. nia. }
  specialize (IH u ltac:(nia) KU).
  pose proof (sw_pops u (f1 + Z.of_nat (S j)) ltac:(lia) UA U3) as P.
  pose proof (sw_lt (n0 + u) (n0 + k) ltac:(lia)) as LT.
  assert (KE : (E (n0 + k1) <= E (n0 + u))%nat).
  { destruct (Nat.eq_dec k1 u) as [-> |NE]; [lia|]. pose proof (sw_lt (n0 + k1) (n0 + u) ltac:(lia)). lia. }
  replace (E (n0 + k) - E (n0 + k1))%nat with ((E (n0 + u) - E (n0 + k1)) + (1 + (E (n0 + k) - E (n0 + u) - 1)))%nat by lia.
  rewrite !occ_app. cbn [occurrences]. replace (E (n0 + k1) + (E (n0 + u) - E (n0 + k1)) + 0)%nat with (E (n0 + u)) by lia. rewrite P. lia.
Qed.

(** A set on offer left the registers no earlier than four sets ago. *)
Lemma sw_from : forall t v, off t = Some v -> exists tau, (tau < t)%nat /\ ini_en (ot_ini (st tau)) = true /\ v = ini_regs (ot_ini (st tau)) /\
  forall a, (a <= t)%nat -> (4 <= occurrences (pops mem ra ii) a (t - a))%nat -> (a <= tau)%nat.
Proof.
  intros t v O. assert (HM : Z.of_nat (length mem) = 2 ^ 2) by (rewrite L; reflexivity).
  unfold off in O. rewrite (ot_ini_run shift aw depth mem ra i) in O. change (ini_out (ini_run mem ra ii t) = Some v) in O.
  destruct (ini_offer mem ra ii L t v O) as (A & B & C & ->). set (tau := instant _ _ _) in *. exists tau. split; [exact A|].
  assert (B1 := B). unfold f_wr in B1. cbn [ini_fi ai_w ai_we] in B1. apply andb_prop in B1 as [_ B1]. apply andb_prop in B1 as [_ B1].
  unfold enabled_at in B1. unfold regs_at. rewrite <- (ot_ini_run shift aw depth mem ra i) in B1 |- *. split; [exact B1|]. split; [reflexivity|].
  intros a AT O4. destruct (Nat.le_gt_cases a tau) as [|LT]; [assumption|exfalso].
  set (wr := f_wr _ 2 mem ra (ini_fi mem ra ii)) in *. set (rd := f_rd _ 2 mem ra (ini_fi mem ra ii)) in *.
  assert (E1 : (S (occurrences rd 0 t) <= occurrences wr 0 a)%nat).
  { replace a with (tau + (1 + (a - tau - 1)))%nat by lia. rewrite !occ_app. cbn [occurrences]. replace (0 + tau + 0)%nat with tau by lia. rewrite B. lia. }
  pose proof (pops_occ mem ra ii L a t ltac:(lia)) as PO. cbv zeta in PO. fold rd in PO.
  destruct (f_inv_all _ 2 [] mem ra (ini_fi mem ra ii) ltac:(lia) HM a) as (P0 & P1 & C0 & C1 & F).
  pose proof (fi_pc _ _ _ _ _ _ _ _ _ _ _ F) as F1. pose proof (fi_cord _ _ _ _ _ _ _ _ _ _ _ F) as F2. change (2 ^ 2) with 4 in F1. unfold f_P, f_C in *. fold wr rd in F1, F2. lia.
Qed.

Variables (M : Z -> Z) (junk : nat -> Z).
Let o n := ot_px shift aw M (junk n) (st (E n)) (i (E n)).
Let dv n := ot_dv shift aw (st (E n)) (i (E n)).
Let held n := (underflows o dv n - underflows o dv n0)%nat.
Lemma sw_acc : forall k, (acc k + held (n0 + k) = k)%nat.
Proof.
  induction k as [|k IH]; [unfold held; rewrite Nat.add_0_r; cbn; lia|].
  assert (MO : forall n, (n0 <= n)%nat -> (underflows o dv n0 <= underflows o dv n)%nat) by (intros n H; apply (occ_mono (fun m => px_de (o m) && negb (dv m))); exact H).
  pose proof (MO (n0 + k)%nat ltac:(lia)) as M1. unfold held in *. rewrite sw_accS. rewrite Nat.add_succ_r.
  change (underflows o dv (S (n0 + k))) with (underflows o dv (n0 + k) + if px_de (o (n0 + k)) && negb (dv (n0 + k)) then 1 else 0)%nat.
  destruct (sw_thead k) as (_ & _ & V).
  assert (X : vt_xfer (sT k) (iT k) = negb (px_de (o (n0 + k)) && negb (dv (n0 + k)))).
  { unfold vt_xfer, vo_transfer, vo_valid. unfold o, dv, ot_px, ot_dv, vt_px. cbv zeta. cbn [tx_px px_de vi_valid vi_ready]. fold (sT k) (iT k).
    assert (VV : vi_valid (vt_vi (sT k) (iT k)) = true) by exact V. rewrite VV. cbn [andb].
    assert (RR : vi_ready (vt_vi (sT k) (iT k)) = true) by (unfold iT; cbn [vt_vi vi_ready ot_ti ti_ready]; apply Hready). rewrite RR, andb_true_r.
    destruct (tg_de true (vt_tg (sT k))), (vi_dv (vt_vi (sT k) (iT k))); reflexivity. }
  rewrite X. destruct (px_de (o (n0 + k)) && negb (dv (n0 + k))); cbn [negb]; lia.
Qed.

Definition shows (n : nat) (a : Z) : Prop :=
  let d := M a in px_r (o n) = d mod 2 ^ 8 /\ px_g (o n) = d / 2 ^ 8 mod 2 ^ 8 /\ px_b (o n) = d / 2 ^ 16 mod 2 ^ 8.
Lemma sw_shows : forall k a, dv (n0 + k) = true -> vi_data (vt_vi (sT k) (iT k)) = a -> shows (n0 + k) a.
Proof.
  intros k a DV <-. unfold shows, o, ot_px, vt_px. cbv zeta. cbn [tx_px px_r px_g px_b vi_data]. fold (sT k) (iT k).
  unfold dv, ot_dv in DV. fold (sT k) (iT k) in DV. rewrite DV. unfold slice. rewrite Z.shiftr_0_r || idtac.
  change (2 ^ 0) with 1. rewrite ?Z.div_1_r. auto.
Qed.
Lemma sw_word : forall v q, (vp_base (regs_param shift aw v) + q) mod 2 ^ aw = picture_word shift aw v q.
Proof. intros v q. unfold regs_param, dr_words, trunc, picture_word. cbn [vp_base]. apply Zplus_mod_idemp_l. Qed.

(** The scan and the words shown. *)
Lemma sw_scan : forall n, (n0 <= n)%nat ->
  ((n <= n0 + held n)%nat -> px_de (o n) = false /\ px_hs (o n) = false /\ px_vs (o n) = false) /\
  (forall f y x, 0 <= f -> 0 <= y < p_vscan p + 1 -> 0 <= x < p_hscan p + 1 ->
   Z.of_nat n = Z.of_nat n0 + 1 + (f * (p_vscan p + 1) + y) * (p_hscan p + 1) + x + Z.of_nat (held n) ->
   px_de (o n) = (x <? p_hres p) && (y <? p_vres p) /\
   px_hs (o n) = (p_hs_start p <=? x) && (x <? p_hs_end p) /\
   px_vs (o n) = (p_vs_start p <=? y) && (y <? p_vs_end p)).
Proof.
  intros n Hn. set (k := (n - n0)%nat). assert (NK : n = (n0 + k)%nat) by lia. pose proof (sw_acc k) as A. rewrite <- NK in A.
  assert (OD : px_de (o n) = tg_de true (tg_at p (Z.of_nat (acc k))) /\ px_hs (o n) = t_hs (tg_at p (Z.of_nat (acc k))) /\ px_vs (o n) = t_vs (tg_at p (Z.of_nat (acc k)))).
  { rewrite <- sw_tg. destruct (sw_thead k) as (_ & _ & V). unfold o, ot_px, vt_px. rewrite NK. cbv zeta. fold (sT k) (iT k). cbn [tx_px px_de px_hs px_vs vi_valid vt_vi]. rewrite V. auto. }
  destruct OD as (-> & -> & ->). split.
  - intros H. assert (A0 : acc k = 0%nat) by lia. rewrite A0, tg_at_0 by exact ok. auto.
  - intros f y x Hf Hy Hx EQ. set (pt := (f * (p_vscan p + 1) + y) * (p_hscan p + 1) + x) in *.
    assert (P0 : 0 <= pt) by (unfold pt; destruct ok; nia).
    assert (AK : Z.of_nat (acc k) = pt + 1) by lia. rewrite AK.
    destruct (point_xy p f y x Hf ltac:(lia) ltac:(lia)) as [PA PB]. cbv zeta in PA, PB. fold pt in PA, PB.
    unfold tg_de. cbn [tg_at t_hact t_vact t_hs t_vs]. replace (pt + 1 - 1) with pt by lia.
    replace (1 <=? pt + 1) with true by (symmetry; apply Z.leb_le; lia). unfold spec_hsync, spec_vsync. rewrite ?PA, ?PB. cbn [andb]. auto.
Qed.

(** Frame [f], seen from any clock [n1] in it. *)
Let pos n := Z.of_nat n - Z.of_nat n0 - Z.of_nat (held n).
Lemma sw_pos : forall k, pos (n0 + k) = Z.of_nat (acc k).
Proof. intros k. unfold pos. pose proof (sw_acc k). lia. Qed.
Lemma sw_old : forall k g v, 0 <= g -> (g + 4) * HV < Z.of_nat (acc k) -> off (E (n0 + k)) = Some v ->
  exists tau, (tau < E (n0 + k))%nat /\ ini_en (ot_ini (st tau)) = true /\ v = ini_regs (ot_ini (st tau)) /\
  forall k', Z.of_nat (acc k') <= (g + 1) * HV -> (E (n0 + k') <= tau)%nat.
Proof.
  intros k g v F A V. destruct (sw_from (E (n0 + k)) v V) as (tau & T1 & T2 & T3 & T4). exists tau. do 3 (split; [assumption|]).
  intros k' A'. pose proof sw_HV as HP.
  assert (KK : (k' <= k)%nat).
  { destruct (Nat.le_gt_cases k' k) as [|LT]; [assumption|exfalso].
    assert (acc k <= acc k')%nat by (apply (occ_mono (fun m => vt_xfer (sT m) (iT m))); lia). nia. }
  apply T4; [destruct (Nat.eq_dec k' k) as [-> |NE]; [lia|]; pose proof (sw_lt (n0 + k') (n0 + k) ltac:(lia)); lia|].
  apply (sw_count g k' F A'); [lia|exact KK].
Qed.

Lemma sw_frame : forall f n1, 0 <= f -> (n0 <= n1)%nat -> f * HV < pos n1 <= (f + 1) * HV ->
  exists A B T, (T <= depth)%nat /\ (f = 0 -> T = 0%nat) /\ (exists ta, ini_en (ot_ini (st ta)) = true /\ A = ini_regs (ot_ini (st ta)) /\
      (forall n', (n0 <= n')%nat -> 5 <= f -> pos n' <= (f - 4) * HV -> (E n' <= ta)%nat)) /\
    (exists tb, ini_en (ot_ini (st tb)) = true /\ B = ini_regs (ot_ini (st tb)) /\
      (forall n', (n0 <= n')%nat -> 4 <= f -> pos n' <= (f - 3) * HV -> (E n' <= tb)%nat)) /\
    forall n y x, (n0 <= n)%nat -> 0 <= y < p_vres p -> 0 <= x < p_hres p ->
    pos n = 1 + (f * (p_vscan p + 1) + y) * (p_hscan p + 1) + x -> dv n = true ->
    let q := y * p_hres p + x in shows n (picture_word shift aw (if q <? Z.of_nat T then A else B) q).
Proof.
  intros f n1 Hf Hn1 P1. set (k1 := (n1 - n0)%nat). assert (NK1 : n1 = (n0 + k1)%nat) by lia. rewrite NK1, sw_pos in P1. pose proof sw_HV as HP.
  destruct (sw_head k1) as (B & VB & _ & _ & HB & _).
  assert (AGE : forall g k v, (g + 4) * HV < Z.of_nat (acc k) -> off (E (n0 + k)) = Some v ->
    exists ta, ini_en (ot_ini (st ta)) = true /\ v = ini_regs (ot_ini (st ta)) /\
      (forall n', (n0 <= n')%nat -> 0 <= g -> pos n' <= (g + 1) * HV -> (E n' <= ta)%nat)).
  { intros g k v A V. destruct (Z.le_gt_cases 0 g) as [F5|F5].
    - destruct (sw_old k g v F5 A V) as (ta & _ & A2 & A3 & A4). exists ta. split; [exact A2|]. split; [exact A3|].
      intros n' N' _ P'. replace n' with (n0 + (n' - n0))%nat in P' |- * by lia. rewrite sw_pos in P'. apply A4. exact P'.
    - destruct (sw_from _ v V) as (ta & _ & A2 & A3 & _). exists ta. split; [exact A2|]. split; [exact A3|]. intros; lia. }
  assert (AGEA : forall k v, f * HV <= Z.of_nat (acc k) -> off (E (n0 + k)) = Some v ->
    exists ta, ini_en (ot_ini (st ta)) = true /\ v = ini_regs (ot_ini (st ta)) /\
      (forall n', (n0 <= n')%nat -> 5 <= f -> pos n' <= (f - 4) * HV -> (E n' <= ta)%nat)).
  { intros k v A V. destruct (AGE (f - 5) k v ltac:(nia) V) as (ta & A1 & A2 & A3). exists ta. split; [exact A1|]. split; [exact A2|].
    intros n' N' F5 P'. apply A3; [exact N'|lia|]. replace (f - 5 + 1) with (f - 4) by lia. exact P'. }
  assert (AGEB : exists tb, ini_en (ot_ini (st tb)) = true /\ B = ini_regs (ot_ini (st tb)) /\
      (forall n', (n0 <= n')%nat -> 4 <= f -> pos n' <= (f - 3) * HV -> (E n' <= tb)%nat)).
  { destruct (AGE (f - 4) k1 B ltac:(replace (f - 4 + 4) with f by lia; lia) VB) as (ta & A1 & A2 & A3). exists ta. split; [exact A1|]. split; [exact A2|].
    intros n' N' F5 P'. apply A3; [exact N'|lia|]. replace (f - 4 + 1) with (f - 3) by lia. exact P'. }
  assert (DN : (depth <= Z.to_nat N)%nat) by lia.
  assert (XF : forall k, dv (n0 + k) = true -> vt_xfer (sT k) (iT k) = true).
  { intros k DV. destruct (sw_thead k) as (_ & _ & V). unfold vt_xfer, vo_transfer, vo_valid.
    assert (VV : vi_valid (vt_vi (sT k) (iT k)) = true) by exact V. rewrite VV.
    assert (RR : vi_ready (vt_vi (sT k) (iT k)) = true) by (unfold iT; cbn [vt_vi vi_ready ot_ti ti_ready]; apply Hready). rewrite RR.
    assert (DD : vi_dv (vt_vi (sT k) (iT k)) = true) by exact DV. rewrite DD, orb_true_r. reflexivity. }
  assert (BB : forall k, f * HV < Z.of_nat (acc k) <= (f + 1) * HV -> vp_base (vt_head (sT k) (iT k)) = vp_base (regs_param shift aw B)).
  { intros k AK. rewrite <- HB. destruct (Nat.le_ge_cases k k1) as [LE|LE].
    - symmetry. exact (base_frame aw depth p N sT iT Haw ok sw_H0 sw_HS sw_thead sw_tkeep f k k1 Hf LE (or_intror (proj1 AK)) (proj2 P1)).
    - exact (base_frame aw depth p N sT iT Haw ok sw_H0 sw_HS sw_thead sw_tkeep f k1 k Hf LE (or_intror (proj1 P1)) (proj2 AK)). }
  assert (RNG : forall y x, 0 <= y < p_vres p -> 0 <= x < p_hres p ->
    f * HV < 1 + (f * (p_vscan p + 1) + y) * (p_hscan p + 1) + x <= (f + 1) * HV).
  { intros y x Hy Hx. destruct ok as [q1 q2 q3 q4 _ _ _ _]. unfold HV. nia. }
  destruct (Z.eq_dec f 0) as [-> |F0].
  - exists B, B, 0%nat. split; [lia|]. split; [auto|]. split; [apply (AGEA k1 B); [lia|exact VB]|]. split; [exact AGEB|].
    intros n y x Hn Hy Hx EQ DV q. set (k := (n - n0)%nat). assert (NK : n = (n0 + k)%nat) by lia. rewrite NK in *. rewrite sw_pos in EQ.
    destruct (tear aw depth p N sT iT Haw ok Hlen eq_refl sw_H0 sw_HS sw_thead sw_tkeep DN k 0 y x Hf Hy Hx EQ (XF k DV)) as [T0 _].
    cbv zeta in T0. apply sw_shows; [exact DV|]. rewrite (T0 eq_refl), (BB k) by (rewrite EQ; apply RNG; assumption).
    fold q. destruct (q <? _); apply sw_word.
  - destruct (TearProps.acc_reach aw p sT iT k1 (Z.to_nat (f * HV)) ltac:(change (Z.to_nat (f * HV) < acc k1)%nat; lia)) as (u & U1 & U2 & U3).
    fold (acc u) in U2. assert (UA : Z.of_nat (acc u) = f * HV) by (rewrite U2; apply Z2Nat.id; nia).
    destruct (sw_head u) as (A & VA & _ & _ & HA & _).
    destruct (tear_inv aw depth p N sT iT Haw ok Hlen sw_H0 sw_HS sw_thead (S u)) as (_ & _ & TD).
    exists A, B, (length (vt_reads (sT (S u)))). split; [exact TD|]. split; [lia|]. split; [apply (AGEA u A); [lia|exact VA]|]. split; [exact AGEB|].
    intros n y x Hn Hy Hx EQ DV q. set (k := (n - n0)%nat). assert (NK : n = (n0 + k)%nat) by lia. rewrite NK in *. rewrite sw_pos in EQ.
    destruct (tear aw depth p N sT iT Haw ok Hlen eq_refl sw_H0 sw_HS sw_thead sw_tkeep DN k f y x Hf Hy Hx EQ (XF k DV)) as [_ T1].
    destruct (T1 ltac:(lia)) as (w & W1 & W2 & W3 & W4 & W5). fold (acc w) in W2. fold HV in W2.
    assert (UW : w = u).
    { destruct (Nat.lt_trichotomy w u) as [LT|[EQ1|LT]]; [|exact EQ1|]; exfalso.
      - assert (AS : (acc (S w) <= acc u)%nat) by (apply (occ_mono (fun m => vt_xfer (sT m) (iT m))); lia). rewrite sw_accS, W3 in AS. lia.
      - assert (AS : (acc (S u) <= acc w)%nat) by (apply (occ_mono (fun m => vt_xfer (sT m) (iT m))); lia). rewrite sw_accS, U3 in AS. lia. }
    rewrite UW in W5. apply sw_shows; [exact DV|]. rewrite W5. rewrite (BB k) by (rewrite EQ; apply RNG; assumption). rewrite HA. fold q.
    destruct (q <? _); apply sw_word.
Qed.

Lemma sw_request : forall n a, (n0 <= n)%nat -> dr_taken aw (ot_dr (st (E n))) (vt_di depth (ot_vt shift aw (st (E n))) (ot_ti shift aw (st (E n)) (i (E n)))) = Some a ->
  exists v q, off (E n) = Some v /\ 0 <= q < N /\ a = picture_word shift aw v q.
Proof.
  intros n a Hn TK. set (k := (n - n0)%nat). assert (NK : n = (n0 + k)%nat) by lia. rewrite NK in *. fold (sT k) (iT k) in TK.
  destruct (sw_head k) as (v & V & P1 & P2 & HH & HVv).
  destruct (tear_inv aw depth p N sT iT Haw ok Hlen sw_H0 sw_HS sw_thead k) as (R & _).
  set (tot := (_ + _)%nat) in R. clearbody tot.
  assert (HL : dri_length (vt_di depth (sT k) (iT k)) = N) by (cbn [vt_di dri_length]; apply sw_thead).
  pose proof (dr_rel_step aw (dri_base (vt_di depth (sT k) (iT k))) N Haw Hlen (vt_dr (sT k)) (Z.of_nat tot) (vt_di depth (sT k) (iT k)) ltac:(lia) HVv eq_refl HL R) as RS.
  change (ot_dr (st (E (n0 + k)))) with (vt_dr (sT k)) in TK. rewrite TK in RS. destruct RS as [-> _].
  exists v, (Z.of_nat tot mod N). split; [exact V|]. split; [apply Z.mod_pos_bound; lia|]. cbn [vt_di dri_base]. rewrite HH. apply sw_word.
Qed.
End Swap.

Lemma moving_start : forall shift aw depth mem ra i u p t0, 0 <= aw -> length mem = 4%nat -> enabled_moving shift aw depth mem ra i u p t0 ->
  let st := ot_run shift aw depth mem ra i in
  (forall x, (t0 <= x)%nat -> ini_en (ot_ini (st x)) = true) /\
  (forall t v, (t0 <= t)%nat -> ini_out (ot_ini (st t)) = Some v -> timing_of v = p /\ nth 9 v 0 / 2 ^ shift = p_hres p * p_vres p) /\
  (ot_tg (st t0) = tg_init /\ ot_dr (st t0) = dr_init /\ ot_reads (st t0) = []) /\ ini_out (ot_ini (st t0)) <> None.
Proof.
  intros shift aw depth mem ra i u p t0 Haw L (A & B & C & D) st.
  assert (OF : forall t v, ini_out (ot_ini (st t)) = Some v -> exists tau, (u <= tau < t)%nat /\ v = ini_regs (ot_ini (st tau))).
  { intros t v O. destruct (sw_from shift aw depth mem ra i Haw L p t0 t v O) as (tau & T1 & T2 & T3 & _). unfold st in *. rewrite A in T2.
    apply Nat.leb_le in T2. exists tau. auto. }
  split; [|split; [|split; [|exact C]]].
  - intros x X. unfold st. rewrite A. apply Nat.leb_le. fold st in C. destruct (ini_out (ot_ini (st t0))) as [v|] eqn:O; [|congruence].
    destruct (OF t0 v O) as (tau & T & _). lia.
  - intros t v T O. destruct (OF t v O) as (tau & T1 & ->). apply B. lia.
  - exact (ot_idle shift aw depth mem ra i L t0 D).
Qed.
Lemma moving_held0 : forall shift aw depth mem ra i u p t0, length mem = 4%nat -> enabled_moving shift aw depth mem ra i u p t0 ->
  forall HV E, clocks i HV E -> forall M junk, let st := ot_run shift aw depth mem ra i in
  let o n := ot_px shift aw M (junk n) (st (E n)) (i (E n)) in
  let dv n := ot_dv shift aw (st (E n)) (i (E n)) in
  let n0 := occurrences (fun x => ot_cd (i x)) 0 t0 in
  (forall n, (n < n0)%nat -> px_de (o n) = false /\ px_hs (o n) = false /\ px_vs (o n) = false) /\ underflows o dv n0 = 0%nat.
Proof.
  intros shift aw depth mem ra i u p t0 L (A & B & C & D) HV E [HE1 _] M junk st o dv n0.
  assert (BL : forall n, (n < n0)%nat -> px_de (o n) = false /\ px_hs (o n) = false /\ px_vs (o n) = false)
    by exact (o_blank shift aw depth mem ra i L [] t0 E HE1 M junk D).
  split; [exact BL|]. unfold underflows. apply occ_zero. intros t T. destruct (BL t ltac:(lia)) as (-> & _). reflexivity.
Qed.

(** While software rewrites the base register, at any time and as often as it likes, the scan goes on
    undisturbed, and every frame shows two pictures at most: the first [T] pixels, no more than fit the
    buffer of the reader, come from one, the rest from the other; both were in the registers not more
    than four (three) frames before the frame began. *)
Theorem C113_frames_while_moving :
  forall shift aw depth mem ra (i : nat -> ot_in), 0 <= aw -> length mem = 4%nat ->
  forall u p t0, enabled_moving shift aw depth mem ra i u p t0 ->
  params_ok p -> 0 < p_hres p * p_vres p < 2 ^ aw -> Z.of_nat depth <= p_hres p * p_vres p ->
  let HV := (p_hscan p + 1) * (p_vscan p + 1) in
  forall E, clocks i HV E -> (forall x, ot_ready (i x) = true) ->
  forall M junk, let st := ot_run shift aw depth mem ra i in
  let o n := ot_px shift aw M (junk n) (st (E n)) (i (E n)) in
  let dv n := ot_dv shift aw (st (E n)) (i (E n)) in
  let n0 := occurrences (fun x => ot_cd (i x)) 0 t0 in
  let pos n := Z.of_nat n - Z.of_nat n0 - Z.of_nat (underflows o dv n) in
  let regs t := ini_regs (ot_ini (st t)) in
  (forall n, pos n <= 0 -> px_de (o n) = false /\ px_hs (o n) = false /\ px_vs (o n) = false) /\
  (forall n f y x, 0 <= f -> 0 <= y < p_vscan p + 1 -> 0 <= x < p_hscan p + 1 ->
   pos n = 1 + (f * (p_vscan p + 1) + y) * (p_hscan p + 1) + x ->
   px_de (o n) = (x <? p_hres p) && (y <? p_vres p) /\
   px_hs (o n) = (p_hs_start p <=? x) && (x <? p_hs_end p) /\
   px_vs (o n) = (p_vs_start p <=? y) && (y <? p_vs_end p)) /\
  (forall f n1, 0 <= f -> f * HV < pos n1 <= (f + 1) * HV ->
   exists ta tb T, (T <= depth)%nat /\ (f = 0 -> T = 0%nat) /\ (u <= ta)%nat /\ (u <= tb)%nat /\
   (forall n', (n0 <= n')%nat -> 5 <= f -> pos n' <= (f - 4) * HV -> (E n' <= ta)%nat) /\
   (forall n', (n0 <= n')%nat -> 4 <= f -> pos n' <= (f - 3) * HV -> (E n' <= tb)%nat) /\
   forall n y x, 0 <= y < p_vres p -> 0 <= x < p_hres p ->
   pos n = 1 + (f * (p_vscan p + 1) + y) * (p_hscan p + 1) + x -> dv n = true ->
   let q := y * p_hres p + x in
   let d := M (picture_word shift aw (regs (if q <? Z.of_nat T then ta else tb)) q) in
   px_r (o n) = d mod 2 ^ 8 /\ px_g (o n) = d / 2 ^ 8 mod 2 ^ 8 /\ px_b (o n) = d / 2 ^ 16 mod 2 ^ 8).
Proof.
  intros shift aw depth mem ra i Haw L u p t0 Hon ok Hpix Hdepth HV E HE Hready M junk st o dv n0 pos regs.
  destruct (moving_start shift aw depth mem ra i u p t0 Haw L Hon) as (F1 & F2 & F3 & F4).
  destruct (moving_held0 shift aw depth mem ra i u p t0 L Hon _ E HE M junk) as [BL B0]. cbv zeta in BL, B0.
  assert (BL' : forall n, (n < n0)%nat -> px_de (o n) = false /\ px_hs (o n) = false /\ px_vs (o n) = false) by exact BL. clear BL.
  assert (B0' : underflows o dv n0 = 0%nat) by exact B0. clear B0.
  assert (GE : forall n, 0 < pos n -> (n0 <= n)%nat) by (intros n; unfold pos; lia).
  assert (HP : 0 < HV) by (unfold HV; destruct ok; nia).
  assert (PS : forall n, Z.of_nat n - Z.of_nat n0 - Z.of_nat (underflows o dv n - underflows o dv n0) = pos n) by (intros n; rewrite B0'; unfold pos; lia).
  assert (SC : forall n, (n0 <= n)%nat -> _) by exact (sw_scan shift aw depth mem ra i Haw L p t0 F1 F2 F3 F4 ok Hpix E HE Hready M junk).
  cbv zeta in SC. fold st in SC.
  assert (PNN : forall f y x, 0 <= f -> 0 <= y -> 0 <= x -> 0 <= (f * (p_vscan p + 1) + y) * (p_hscan p + 1) + x) by (intros; destruct ok; nia).
  split; [|split].
  - intros n P. destruct (Nat.lt_ge_cases n n0) as [LT|LE]; [exact (BL' n LT)|]. apply (proj1 (SC n LE)).
    change (n <= n0 + (underflows o dv n - underflows o dv n0))%nat. specialize (PS n). lia.
  - intros n f y x Hf Hy Hx EQ. specialize (PNN f y x Hf ltac:(lia) ltac:(lia)). apply (proj2 (SC n (GE n ltac:(lia))) f y x Hf Hy Hx).
    specialize (PS n). unfold o, dv, n0, st in *. lia.
  - intros f n1 Hf P1.
    assert (FR : exists A B T, _) by (eapply (sw_frame shift aw depth mem ra i Haw L p t0 F1 F2 F3 F4 ok Hpix Hdepth E HE Hready M junk f n1 Hf);
      [apply GE; nia|specialize (PS n1); unfold pos, o, dv, n0, st in *; lia]).
    destruct FR as (A & B & T & T1 & T2 & (ta & A1 & A2 & A3) & (tb & B1 & B2 & B3) & SH).
    destruct Hon as (EN & _). exists ta, tb, T. split; [exact T1|]. split; [exact T2|].
    split; [rewrite EN in A1; apply Nat.leb_le; exact A1|]. split; [rewrite EN in B1; apply Nat.leb_le; exact B1|].
    split; [intros n' N' F P; apply (A3 n' N' F); specialize (PS n'); unfold pos, o, dv, n0, st in *; lia|].
    split; [intros n' N' F P; apply (B3 n' N' F); specialize (PS n'); unfold pos, o, dv, n0, st in *; lia|].
    intros n y x Hy Hx EQ DV q d. specialize (PNN f y x Hf ltac:(lia) ltac:(lia)).
    assert (SHn := SH n y x (GE n ltac:(lia)) Hy Hx ltac:(specialize (PS n); unfold pos, o, dv, n0, st in *; lia) DV).
    unfold d, regs. unfold shows in SHn. cbv zeta in SHn. fold q in SHn. rewrite A2, B2 in SHn. destruct (q <? Z.of_nat T); exact SHn.
Qed.
Print Assumptions C113_frames_while_moving.

(** Double buffering: the registers hold [R] from [w] on. With [f] the frame during which (or at whose
    end) that happens, the old picture is no longer read once frame [f + 4] has begun, and
    frame [f + 5] and all later ones show the new picture throughout. *)
Theorem C113_double_buffer :
  forall shift aw depth mem ra (i : nat -> ot_in), 0 <= aw -> length mem = 4%nat ->
  forall u p t0, enabled_moving shift aw depth mem ra i u p t0 ->
  params_ok p -> 0 < p_hres p * p_vres p < 2 ^ aw -> Z.of_nat depth <= p_hres p * p_vres p ->
  let HV := (p_hscan p + 1) * (p_vscan p + 1) in
  forall E, clocks i HV E -> (forall x, ot_ready (i x) = true) ->
  forall M junk, let st := ot_run shift aw depth mem ra i in
  let o n := ot_px shift aw M (junk n) (st (E n)) (i (E n)) in
  let dv n := ot_dv shift aw (st (E n)) (i (E n)) in
  let n0 := occurrences (fun x => ot_cd (i x)) 0 t0 in
  let pos n := Z.of_nat n - Z.of_nat n0 - Z.of_nat (underflows o dv n) in
  forall w R, (forall x, (w <= x)%nat -> ini_regs (ot_ini (st x)) = R) ->
  forall f n1, 0 <= f -> (n0 <= n1)%nat -> (w <= E n1)%nat -> pos n1 <= (f + 1) * HV ->
  (forall n a, (f + 4) * HV < pos n -> ot_addr shift aw depth (st (E n)) (i (E n)) = Some a ->
   exists q, 0 <= q < p_hres p * p_vres p /\ a = picture_word shift aw R q) /\
  (forall n g y x, f + 5 <= g -> 0 <= y < p_vres p -> 0 <= x < p_hres p ->
   pos n = 1 + (g * (p_vscan p + 1) + y) * (p_hscan p + 1) + x -> dv n = true ->
   let d := M (picture_word shift aw R (y * p_hres p + x)) in
   px_r (o n) = d mod 2 ^ 8 /\ px_g (o n) = d / 2 ^ 8 mod 2 ^ 8 /\ px_b (o n) = d / 2 ^ 16 mod 2 ^ 8).
Proof.
  intros shift aw depth mem ra i Haw L u p t0 Hon ok Hpix Hdepth HV E HE Hready M junk st o dv n0 pos w R HR f n1 Hf N1 W1 P1.
  assert (HP : 0 < HV) by (unfold HV; destruct ok; nia).
  assert (GE : forall n, 0 < pos n -> (n0 <= n)%nat) by (intros n; unfold pos; lia).
  split.
  - intros n a PN TK. destruct (moving_start shift aw depth mem ra i u p t0 Haw L Hon) as (F1 & F2 & F3 & F4).
    destruct (moving_held0 shift aw depth mem ra i u p t0 L Hon _ E HE M junk) as [_ B0]. cbv zeta in B0.
    assert (B0' : underflows o dv n0 = 0%nat) by exact B0. clear B0.
    assert (PS : forall n, Z.of_nat n - Z.of_nat n0 - Z.of_nat (underflows o dv n - underflows o dv n0) = pos n) by (intros k; rewrite B0'; unfold pos; lia).
    assert (NN : (n0 <= n)%nat) by (apply GE; nia).
    destruct (sw_request shift aw depth mem ra i Haw L p t0 F1 F2 F3 F4 ok Hpix E HE n a NN TK) as (v & q & V & Q & ->).
    exists q. split; [exact Q|].
    pose proof (sw_pos shift aw depth mem ra i Haw L p t0 F1 F2 F3 F4 ok Hpix E HE Hready M junk) as SP. cbv zeta beta in SP. fold st n0 in SP.
    destruct (sw_old shift aw depth mem ra i Haw L p t0 F1 F2 F3 F4 ok Hpix E HE (n - n0) f v Hf) as (tau & _ & _ & -> & T4).
    + pose proof (PS n) as PN'. pose proof (SP (n - n0)%nat) as SPn. fold st n0. replace (n0 + (n - n0))%nat with n in * by lia.
      rewrite <- PS in PN. rewrite <- SPn. exact PN.
    + fold n0. replace (n0 + (n - n0))%nat with n by lia. exact V.
    + assert (TT : (E n1 <= tau)%nat).
      { specialize (T4 (n1 - n0)%nat). fold n0 in T4. replace (n0 + (n1 - n0))%nat with n1 in T4 by lia. apply T4.
        pose proof (SP (n1 - n0)%nat) as SPn. replace (n0 + (n1 - n0))%nat with n1 in SPn by lia.
        refine (Z.le_trans _ _ _ (Z.eq_le_incl _ _ (eq_sym SPn)) _). rewrite <- (PS n1) in P1. exact P1. }
      fold st. rewrite HR by lia. reflexivity.
  - intros n g y x Hg Hy Hx EQ DV d.
    destruct (C113_frames_while_moving shift aw depth mem ra i Haw L u p t0 Hon ok Hpix Hdepth E HE Hready M junk) as (_ & _ & FR). cbv zeta in FR. fold st HV in FR.
    assert (RNG : g * HV < pos n <= (g + 1) * HV) by (rewrite EQ; destruct ok; unfold HV; nia).
    destruct (FR g n ltac:(lia) RNG) as (ta & tb & T & _ & _ & _ & _ & TA & TB & SH).
    specialize (TA n1 N1 ltac:(lia)). specialize (TB n1 N1 ltac:(lia)).
    assert (PA : pos n1 <= (g - 4) * HV) by nia. assert (PB : pos n1 <= (g - 3) * HV) by nia.
    specialize (TA PA). specialize (TB PB). specialize (SH n y x Hy Hx EQ DV).
    rewrite !HR in SH by (destruct (_ <? _); lia). exact SH.
Qed.
Print Assumptions C113_double_buffer.

(** A concrete case: the output of [ex_ot_on], whose base register software changes from 400 to 800
    at instant 500. *)
Definition ex_sw_in (t : nat) : ot_in :=
  {| ot_sys := true; ot_cd := true; ot_sw := if Nat.eqb t 500 then IwField 8 800 else ot_sw (ex_ot_in t);
     ot_mem := ot_mem (ex_ot_in t); ot_ret := true; ot_ready := true; ot_mp := 0; ot_mc := 5 |}.
Definition ex_sw (t : nat) : ot_st := ot_run 2 8 8 (repeat [] 4) 0 ex_sw_in t.
Definition ex_sw_regs : list Z := [24; 30; 40; 55; 2; 3; 4; 4; 800; 192].
Lemma ex_sw_step : forall t, (11 <= t)%nat -> let s := ot_ini (ex_sw t) in let s' := ot_ini (ex_sw (S t)) in
  ini_en s' = ini_en s /\ ini_regs s' = if Nat.eqb t 500 then snd (ini_write (IwField 8 800) (ini_en s) (ini_regs s)) else ini_regs s.
Proof.
  intros t T s s'. unfold s', s. change (ex_sw (S t)) with (ot_step 2 8 8 (ex_sw t) (ex_sw_in t)). unfold ot_step. cbv zeta. cbn [ot_ini]. unfold ini_step. cbv zeta.
  cbn [ini_en ini_regs ot_ini_in ini_sys ini_sw ex_sw_in ot_sys ot_sw]. destruct (Nat.eqb t 500); [auto|].
  unfold ex_ot_in. cbn [ot_sw]. replace (t <? 10)%nat with false by (symmetry; apply Nat.ltb_ge; lia). replace (Nat.eqb t 10) with false by (symmetry; apply Nat.eqb_neq; lia).
  auto.
Qed.
Example ex_sw_on : enabled_moving 2 8 8 (repeat [] 4) 0 ex_sw_in 11 ex_mode 14 /\ (forall x, (501 <= x)%nat -> ini_regs (ot_ini (ex_sw x)) = ex_sw_regs).
Proof.
  assert (AFT : forall t, (11 <= t)%nat -> ini_en (ot_ini (ex_sw t)) = true /\ ini_regs (ot_ini (ex_sw t)) = if (t <=? 500)%nat then ex_ot_regs else ex_sw_regs).
  { intros t T. induction T as [|t T (A & B)]; [vm_compute; auto|]. destruct (ex_sw_step t T) as [C D]. cbv zeta in C, D. rewrite C, D, A, B. split; [reflexivity|].
    destruct (Nat.eqb_spec t 500) as [-> |NE]; [reflexivity|]. destruct (Nat.leb_spec t 500), (Nat.leb_spec (S t) 500); try reflexivity; lia. }
  split; [split; [|split; [|split]]|].
  - intros x. destruct (Nat.leb_spec 11 x) as [X|X]; [apply AFT; exact X|].
    assert (Q : forallb (fun x => negb (ini_en (ot_ini (ex_sw x)))) (seq 0 11) = true) by (vm_compute; reflexivity).
    rewrite forallb_forall in Q. apply negb_true_iff, Q, in_seq. lia.
  - intros x X. destruct (AFT x X) as [_ B]. change (ot_run 2 8 8 (repeat [] 4) 0 ex_sw_in x) with (ex_sw x). rewrite B. destruct (x <=? 500)%nat; split; reflexivity.
  - vm_compute. discriminate.
  - intros x X. assert (Q : forallb (fun x => match ini_out (ot_ini (ex_sw x)) with None => true | _ => false end) (seq 0 14) = true) by (vm_compute; reflexivity).
    rewrite forallb_forall in Q. specialize (Q x). fold (ex_sw x). destruct (ini_out (ot_ini (ex_sw x))); [|reflexivity].
    assert (false = true) by (apply Q, in_seq; lia). discriminate.
  - intros x X. destruct (AFT x ltac:(lia)) as [_ ->]. replace (x <=? 500)%nat with false by (symmetry; apply Nat.leb_gt; lia). reflexivity.
Qed.
Example ex_sw_hyps : clocks ex_sw_in ((p_hscan ex_mode + 1) * (p_vscan ex_mode + 1)) (fun n => n) /\ (forall x, ot_ready (ex_sw_in x) = true) /\
  params_ok ex_mode /\ 0 < p_hres ex_mode * p_vres ex_mode < 2 ^ 8 /\ Z.of_nat 8 <= p_hres ex_mode * p_vres ex_mode.
Proof.
  split; [|split; [reflexivity|split; [apply ex_mode_ok|cbn; lia]]].
  split; [intros n; split; [reflexivity|apply all_edges]|]. intros a b AB H.
  change (fun x => ot_cd (ex_sw_in x)) with (fun _ : nat => true) in H. change (fun x => ot_sys (ex_sw_in x)) with (fun _ : nat => true).
  rewrite all_edges in *. cbn in H. lia.
Qed.
(** The bound is reached: the write falls into frame 1; clocks 1431 and 1432 carry pixels 7 and 8 of
    frame 5, the first still of the old picture (word 100 + 7), the second of the new (word 200 + 8). *)
Example ex_sw_tight : let w n := vi_data (vt_vi (ot_vt 2 8 (ex_sw n)) (ot_ti 2 8 (ex_sw n) (ex_sw_in n))) in
  let dv n := ot_dv 2 8 (ex_sw n) (ex_sw_in n) in
  w 1431%nat = picture_word 2 8 ex_ot_regs 7 /\ dv 1431%nat = true /\ w 1432%nat = picture_word 2 8 ex_sw_regs 8 /\ dv 1432%nat = true.
Proof. vm_compute. auto. Qed.
