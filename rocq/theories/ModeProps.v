(** C127: software changes the mode while the output runs. *)
From Coq Require Import ZArith List Bool Lia Arith.
From Verif Require Import Hdl Trace CdcProofs TimingModel TimingSpec TimingProofs VideoOutModel VideoOutProofs
  HdmiModel LinkModel LinkProps FifoModel FifoProofs FifoProps PhyModel PhyProps OutTopModel OutTopProofs OutTopProps OutSwapProps ModeProofs FairProps.
Import ListNotations.
Open Scope Z_scope.

(** The output is enabled at [u] and stays enabled; [t0] is the first instant with a set at the
    output of the FIFO. *)
Definition enabled_from (shift aw : Z) (depth : nat) (mem : list (list Z)) (ra : Z) (i : nat -> ot_in) (u t0 : nat) : Prop :=
  let s x := ot_ini (ot_run shift aw depth mem ra i x) in
  (forall x, ini_en (s x) = (u <=? x)%nat) /\ ini_out (s t0) <> None /\ (forall x, (x < t0)%nat -> ini_out (s x) = None).

(** Clocks per frame of the mode in [R]. *)
Definition frame_len (R : list Z) : Z := (p_hscan (timing_of R) + 1) * (p_vscan (timing_of R) + 1).
(** The registers hold a mode together with the length of a picture of its size, and the picture is
    larger than the buffer of the reader. *)
Record whole_set (shift aw : Z) (depth : nat) (R : list Z) : Prop := {
  ws_ok : params_ok (timing_of R); ws_hres : 0 < p_hres (timing_of R); ws_vres : 0 < p_vres (timing_of R);
  ws_hs : 0 < p_hs_start (timing_of R); ws_vs : 0 < p_vs_start (timing_of R);
  ws_len : nth 9 R 0 / 2 ^ shift = p_hres (timing_of R) * p_vres (timing_of R);
  ws_aw : p_hres (timing_of R) * p_vres (timing_of R) < 2 ^ aw;
  ws_depth : Z.of_nat depth < p_hres (timing_of R) * p_vres (timing_of R)
}.

(** Pixel [q] of a frame of the set [V] whose first [T] pixels come from the picture of the set [A]. *)
Definition pixel_from (shift aw : Z) (V A : list Z) (T : nat) (q : Z) : Z := picture_word shift aw (if q <? Z.of_nat T then A else V) q.
(** What the output shows at point [pos] of a frame (0: before the first) of the set [V]. *)
Definition shows_point (shift aw : Z) (M : Z -> Z) (V A : list Z) (T : nat) (pos : Z) (o : px) (dv : bool) : Prop :=
  let p := timing_of V in
  (pos = 0 -> px_de o = false /\ px_hs o = false /\ px_vs o = false) /\
  (forall y x, 0 <= y < p_vscan p + 1 -> 0 <= x < p_hscan p + 1 -> pos = 1 + y * (p_hscan p + 1) + x ->
   px_de o = (x <? p_hres p) && (y <? p_vres p) /\
   px_hs o = (p_hs_start p <=? x) && (x <? p_hs_end p) /\
   px_vs o = (p_vs_start p <=? y) && (y <? p_vs_end p) /\
   (dv = true -> x < p_hres p -> y < p_vres p ->
    let d := M (pixel_from shift aw V A T (y * p_hres p + x)) in
    px_r o = d mod 2 ^ 8 /\ px_g o = d / 2 ^ 8 mod 2 ^ 8 /\ px_b o = d / 2 ^ 16 mod 2 ^ 8)).
(** The last clock of a frame. *)
Definition frame_end (o : nat -> px) (dv : nat -> bool) (V : nat -> list Z) (pos : nat -> Z) (n : nat) : bool :=
  negb (px_de (o n) && negb (dv n)) && (pos n =? frame_len (V n)).
(** From one clock to the next: an underflow holds everything; at the end of a frame the next set
    comes in, and the one before is where the first pixels may come from. *)
Definition goes_on (o : nat -> px) (dv : nat -> bool) (V A : nat -> list Z) (T : nat -> nat) (pos : nat -> Z) (n : nat) : Prop :=
  if px_de (o n) && negb (dv n) then V (S n) = V n /\ A (S n) = A n /\ T (S n) = T n /\ pos (S n) = pos n
  else if pos n =? frame_len (V n) then A (S n) = V n /\ pos (S n) = 1
  else V (S n) = V n /\ A (S n) = A n /\ T (S n) = T n /\ pos (S n) = pos n + 1.

Section Mode.
Variables (shift aw : Z) (depth : nat) (mem : list (list Z)) (ra : Z) (i : nat -> ot_in).
Hypothesis Haw : 0 <= aw.
Hypothesis L : length mem = 4%nat.
Let st := ot_run shift aw depth mem ra i.
Let off t := ini_out (ot_ini (st t)).
Variables (t0 : nat) (Hm : Z).
Hypothesis Hen : forall x, (t0 <= x)%nat -> ini_en (ot_ini (st x)) = true.
Hypothesis Hbase : ot_tg (st t0) = tg_init /\ ot_dr (st t0) = dr_init /\ ot_reads (st t0) = [].
Hypothesis Hoffer : off t0 <> None.
Hypothesis Hsets : forall t v, (t0 <= t)%nat -> off t = Some v -> whole_set shift aw depth v /\ Hm <= frame_len v.
Variable E : nat -> nat.
Hypothesis HE : clocks i Hm E.
Let cd t := ot_cd (i t).
Let c t := occurrences cd 0 t.
Let n0 := c t0.
Let ii (t : nat) : ini_in := ot_ini_in shift aw (st t) (i t).
Let rp v := regs_param shift aw v.

Lemma md_good : forall v, whole_set shift aw depth v -> good aw depth (rp v).
Proof.
  intros v [W1 W2 W3 W4 W5 W6 W7 W8]. assert (LE : vp_length (rp v) = p_hres (timing_of v) * p_vres (timing_of v)).
  { unfold rp, regs_param, dr_words, trunc. cbn [vp_length]. rewrite W6. apply Z.mod_small. nia. }
  constructor; rewrite ?LE; try assumption; try lia. reflexivity.
Qed.
Lemma md_size : forall v, whole_set shift aw depth v -> Z.of_nat (frame_size (rp v)) = frame_len v.
Proof. intros v W. destruct (frame_size_pos aw depth (rp v) (md_good v W)) as [_ ->]. reflexivity. Qed.

(** Where the output is, instant by instant, and the set of the frame before. *)
Definition md_head (t : nat) : list Z := match off t with Some v => v | None => [] end.
Definition md_xfer (t : nat) : bool := vt_xfer (ot_vt shift aw (st t)) (ot_ti shift aw (st t) (i t)).
Fixpoint md_at (t : nat) : fr_st * list Z :=
  match t with
  | O => ({| fr_pos := 0; fr_torn := 0; fr_prev := vp_base (rp []) |}, [])
  | S t => if (t <? t0)%nat || negb (cd t) then md_at t else
      (fr_step (fst (md_at t)) (rp (md_head t)) (md_xfer t) (length (ot_reads (st (S t)))),
       if md_xfer t && (fr_pos (fst (md_at t)) =? frame_size (rp (md_head t)))%nat then md_head t else snd (md_at t))
  end.
Lemma md_at_start : forall t, (t <= t0)%nat -> md_at t = ({| fr_pos := 0; fr_torn := 0; fr_prev := vp_base (rp []) |}, []).
Proof.
  induction t as [|t IH]; intros H; [reflexivity|]. cbn [md_at]. replace (t <? t0)%nat with true by (symmetry; apply Nat.ltb_lt; lia). cbn [orb]. apply IH. lia.
Qed.
Lemma md_prev : forall t, fr_prev (fst (md_at t)) = vp_base (rp (snd (md_at t))).
Proof.
  induction t as [|t IH]; [reflexivity|]. cbn [md_at]. destruct (_ || _); [exact IH|]. cbn [fst snd]. unfold fr_step.
  destruct (md_xfer t); cbn [andb]; [|exact IH]. destruct (_ =? _)%nat; [reflexivity|exact IH].
Qed.

Lemma md_mono : forall a b, (a <= b)%nat -> (c a <= c b)%nat.
Proof. intros a b H. apply occ_mono. exact H. Qed.
Lemma md_S : forall t, c (S t) = (c t + if cd t then 1 else 0)%nat.
Proof. reflexivity. Qed.
Lemma md_E : forall n, cd (E n) = true /\ c (E n) = n.
Proof. exact (proj1 HE). Qed.

Record md_inv (t : nat) : Prop := {
  mi_off : off t <> None;
  mi_core : core_inv aw depth (fst (md_at t)) (rp (md_head t)) (ot_vt shift aw (st t));
  mi_last : exists t1, (t0 <= t1 <= t)%nat /\ occurrences (pops mem ra ii) t1 (t - t1) = 0%nat /\ (fr_pos (fst (md_at t)) <= 1 + (c t - c t1))%nat
}.
Lemma core_inv_ext : forall g v s s', core_inv aw depth g v s -> vt_tg s' = vt_tg s -> vt_dr s' = vt_dr s -> vt_reads s' = vt_reads s -> core_inv aw depth g v s'.
Proof. intros g v s s' [A1 A2 A3 A4 A5 A6 A7] B1 B2 B3. constructor; rewrite ?B1, ?B2, ?B3; assumption. Qed.

Lemma md_held : forall t v, off t = Some v -> pops mem ra ii t = false -> off (S t) = Some v.
Proof.
  intros t v O P. unfold off in *. rewrite (ot_ini_run shift aw depth mem ra i) in O |- *. apply (C78_held mem ra ii L t v O).
  unfold pops in P. change (ini_out (ini_run mem ra ii t) = Some v) in O. rewrite O, andb_true_r in P. exact P.
Qed.
(** A set is on offer again when one was taken, if the frame was long enough. *)
Lemma md_again : forall t1 t, (t0 <= t1 <= t)%nat -> occurrences (pops mem ra ii) t1 (t - t1) = 0%nat -> pops mem ra ii t = true ->
  cd t = true -> Hm <= Z.of_nat (c t - c t1) + 1 -> off (S t) <> None.
Proof.
  intros t1 t T NP P CD GAP. assert (HM : Z.of_nat (length mem) = 2 ^ 2) by (rewrite L; reflexivity).
  assert (RD : af_readable (f_st _ 2 mem ra (ini_fi mem ra ii) (S t)) = true).
  { pose proof (pops_occ mem ra ii L t1 (S t) ltac:(lia)) as PO. cbv zeta in PO.
    assert (ONE : occurrences (pops mem ra ii) t1 (S t - t1) = 1%nat).
    { replace (S t - t1)%nat with (t - t1 + 1)%nat by lia. rewrite occ_app, NP. cbn [occurrences].
      replace (t1 + (t - t1) + 0)%nat with t by lia. rewrite P. reflexivity. }
    rewrite ONE in PO.
    assert (EN : forall x, (t1 <= x)%nat -> enabled_at mem ra ii x = true).
    { intros x X. unfold enabled_at. rewrite <- (ot_ini_run shift aw depth mem ra i). apply Hen. lia. }
    destruct HE as [_ HE2]. pose proof (md_mono t1 t ltac:(lia)) as M2.
    destruct (Nat.eq_dec (c t) (c t1)) as [EQ|NE].
    - exfalso. pose proof (HE2 t t ltac:(lia)) as X. rewrite Nat.sub_diag in X. cbn [occurrences] in X. lia.
    - destruct (md_E (c t - 1)) as [E1 E2]. set (v := E (c t - 1)) in *.
      assert (V1 : (v < t)%nat).
      { destruct (Nat.lt_ge_cases v t) as [|GE]; [assumption|]. pose proof (md_mono t v GE). lia. }
      assert (V2 : (t1 <= v)%nat).
      { destruct (Nat.le_gt_cases t1 v) as [|LT]; [assumption|]. pose proof (md_mono (S v) t1 LT) as H. rewrite md_S, E1 in H. lia. }
      assert (CV : occurrences cd t1 (v - t1) = (c v - c t1)%nat).
      { unfold c. replace v with (t1 + (v - t1))%nat at 2 by lia. rewrite occ_app, Nat.add_0_l. lia. }
      assert (CT : occurrences cd v (S t - v) = 2%nat).
      { assert (H : c (S t) = (c v + occurrences cd v (S t - v))%nat).
        { unfold c. replace (S t) with (v + (S t - v))%nat at 1 by lia. rewrite occ_app, Nat.add_0_l. reflexivity. }
        rewrite md_S, CD in H. lia. }
      pose proof (HE2 t1 v V2 ltac:(change (fun x => ot_cd (i x)) with cd; rewrite CV; lia)) as SY.
      pose proof (two_pushed mem ra ii L t1 v V2 ltac:(intros x X; apply EN; lia) SY) as TP. cbv zeta in TP.
      apply (f_available _ 2 [] mem ra (ini_fi mem ra ii) ltac:(lia) HM v (S t) ltac:(lia)).
      + change (fun v0 => ai_r (ini_fi mem ra ii v0)) with cd. lia.
      + unfold f_C in *. rewrite PO. lia. }
  unfold off. rewrite (ot_ini_run shift aw depth mem ra i). change (ini_out (ini_run mem ra ii (S t)) <> None). unfold ini_out. rewrite ini_fifo_run. unfold f_st in RD. rewrite RD. discriminate.
Qed.

(** One instant. *)
Lemma md_pop : forall t, (t0 <= t)%nat -> md_inv t ->
  pops mem ra ii t = cd t && (md_xfer t && (fr_pos (fst (md_at t)) =? frame_size (rp (md_head t)))%nat).
Proof.
  intros t T [O C _]. destruct (off t) as [v|] eqn:OV; [|congruence]. destruct (Hsets t v T OV) as [W _].
  assert (HD : md_head t = v) by (unfold md_head; rewrite OV; reflexivity). rewrite HD in *.
  assert (VV : vt_valid (ot_vt shift aw (st t)) = true) by (unfold vt_valid; cbn [ot_vt vt_q]; fold (off t); rewrite OV; reflexivity).
  assert (VH : vt_head (ot_vt shift aw (st t)) (ot_ti shift aw (st t) (i t)) = rp v) by (unfold vt_head; cbn [ot_vt vt_q]; fold (off t); rewrite OV; reflexivity).
  destruct (core_step aw depth Haw _ _ _ (ot_ti shift aw (st t) (i t)) (md_good v W) VV VH C) as (S1 & S2 & _).
  unfold pops. rewrite <- (ot_ini_run shift aw depth mem ra i). fold st. fold (off t). rewrite OV, andb_true_r.
  cbn [ii ot_ini_in ini_cd ini_rdy]. fold (cd t). f_equal. unfold ot_rdy, tg_sink_ready.
  change (ot_tg (st t)) with (vt_tg (ot_vt shift aw (st t))). rewrite S1, S2. reflexivity.
Qed.
Lemma md_inv_all : forall t, (t0 <= t)%nat -> md_inv t.
Proof.
  intros t T. induction T as [|t T I].
  - assert (HD : off t0 = Some (md_head t0)) by (unfold md_head; destruct (off t0); [reflexivity|congruence]).
    constructor; [exact Hoffer| |].
    + rewrite md_at_start by lia. cbn [fst]. destruct Hbase as (B1 & B2 & B3). destruct (Hsets t0 _ (le_n _) HD) as [W _].
      constructor; cbn [fr_pos fr_torn ot_vt vt_tg vt_dr vt_reads]; rewrite ?B1, ?B2, ?B3; cbn [length]; try lia; try reflexivity.
    + exists t0. rewrite Nat.sub_diag. split; [lia|]. split; [reflexivity|]. rewrite md_at_start by lia. cbn [fst fr_pos]. lia.
  - assert (PO := md_pop t T I). destruct I as [O C (t1 & T1 & NP & FP)]. destruct (off t) as [v|] eqn:OV; [|congruence]. destruct (Hsets t v T OV) as [W WH].
    assert (HD : md_head t = v) by (unfold md_head; rewrite OV; reflexivity). rewrite HD in *.
    assert (NPS : pops mem ra ii t = false -> occurrences (pops mem ra ii) t1 (S t - t1) = 0%nat).
    { intros P. replace (S t - t1)%nat with (t - t1 + 1)%nat by lia. rewrite occ_app, NP. cbn [occurrences]. replace (t1 + (t - t1) + 0)%nat with t by lia. rewrite P. reflexivity. }
    assert (HDS : forall v', off (S t) = Some v' -> md_head (S t) = v') by (intros v' V'; unfold md_head; rewrite V'; reflexivity).
    pose proof (md_mono t1 t ltac:(lia)) as MC.
    destruct (cd t) eqn:CD; cbn [andb] in PO.
    + assert (VV : vt_valid (ot_vt shift aw (st t)) = true) by (unfold vt_valid; cbn [ot_vt vt_q]; fold (off t); rewrite OV; reflexivity).
      assert (VH : vt_head (ot_vt shift aw (st t)) (ot_ti shift aw (st t) (i t)) = rp v) by (unfold vt_head; cbn [ot_vt vt_q]; fold (off t); rewrite OV; reflexivity).
      destruct (core_step aw depth Haw _ _ _ (ot_ti shift aw (st t) (i t)) (md_good v W) VV VH C) as (_ & _ & S3 & S4).
      fold (md_xfer t) in S3, S4.
      set (s' := vt_step aw depth (ot_vt shift aw (st t)) (ot_ti shift aw (st t) (i t))) in *.
      assert (SS : vt_tg (ot_vt shift aw (st (S t))) = vt_tg s' /\ vt_dr (ot_vt shift aw (st (S t))) = vt_dr s' /\ vt_reads (ot_vt shift aw (st (S t))) = vt_reads s').
      { change (st (S t)) with (ot_step shift aw depth (st t) (i t)). unfold ot_step. cbv zeta. fold s'. cbn [ot_vt vt_tg vt_dr vt_reads ot_tg ot_dr ot_reads].
        fold (cd t). rewrite CD. auto. }
      destruct SS as (SS1 & SS2 & SS3).
      assert (GS : fst (md_at (S t)) = fr_step (fst (md_at t)) (rp v) (md_xfer t) (length (vt_reads s'))).
      { cbn [md_at]. replace (t <? t0)%nat with false by (symmetry; apply Nat.ltb_ge; lia). rewrite CD. cbn [orb negb fst]. rewrite HD, <- SS3. reflexivity. }
      destruct (md_xfer t && (fr_pos (fst (md_at t)) =? frame_size (rp v))%nat) eqn:B.
      * pose proof B as B'. apply andb_true_iff in B' as [BX BP]. apply Nat.eqb_eq in BP.
        assert (OS : off (S t) <> None).
        { apply (md_again t1 t T1 NP PO CD). pose proof (md_size v W). lia. }
        destruct (off (S t)) as [v'|] eqn:OV'; [|congruence]. destruct (Hsets (S t) v' ltac:(lia) OV') as [W' _].
        constructor; [congruence| |].
        -- rewrite GS, (HDS v' eq_refl). eapply core_inv_ext; [apply (S4 eq_refl (rp v') (md_good v' W'))|..]; assumption.
        -- exists (S t). rewrite Nat.sub_diag. split; [lia|]. split; [reflexivity|]. rewrite GS. unfold fr_step. rewrite BX, BP, Nat.eqb_refl. cbn [fr_pos]. lia.
      * pose proof (md_held t v OV PO) as OV'. constructor; [congruence| |].
        -- rewrite GS, (HDS v OV'). eapply core_inv_ext; [apply (S3 eq_refl)|..]; assumption.
        -- exists t1. split; [lia|]. split; [apply NPS; exact PO|]. rewrite GS, md_S, CD. unfold fr_step. destruct (md_xfer t); [cbn [andb] in B; rewrite B; cbn [fr_pos]|]; lia.
    + pose proof (md_held t v OV PO) as OV'.
      assert (GS : md_at (S t) = md_at t).
      { cbn [md_at]. rewrite CD. cbn [negb]. rewrite orb_true_r. reflexivity. }
      assert (SS : ot_tg (st (S t)) = ot_tg (st t) /\ ot_dr (st (S t)) = ot_dr (st t) /\ ot_reads (st (S t)) = ot_reads (st t)).
      { change (st (S t)) with (ot_step shift aw depth (st t) (i t)). unfold ot_step. cbv zeta. cbn [ot_tg ot_dr ot_reads]. fold (cd t). rewrite CD. auto. }
      destruct SS as (SS1 & SS2 & SS3). constructor; [congruence| |].
      * rewrite GS, (HDS v OV'). eapply core_inv_ext; [exact C|..]; assumption.
      * exists t1. split; [lia|]. split; [apply NPS; exact PO|]. rewrite GS, md_S, CD. lia.
Qed.

(** Between two clock edges nothing changes. *)
Lemma md_still : forall a b, (t0 <= a)%nat -> (a <= b)%nat -> c a = c b ->
  off b = off a /\ md_at b = md_at a /\ occurrences (pops mem ra ii) a (b - a) = 0%nat.
Proof.
  intros a b T AB. induction AB as [|b AB IH]; [intros _; rewrite Nat.sub_diag; auto|]. intros C. pose proof (md_mono a b AB) as M1. rewrite md_S in C.
  destruct (cd b) eqn:CD; [lia|]. destruct IH as (I1 & I2 & I3); [lia|].
  assert (P : pops mem ra ii b = false) by (rewrite (md_pop b ltac:(lia) (md_inv_all b ltac:(lia))), CD; reflexivity).
  split; [|split].
  - rewrite <- I1. destruct (off b) as [v|] eqn:OV; [exact (md_held b v OV P)|]. exfalso. exact (mi_off b (md_inv_all b ltac:(lia)) OV).
  - rewrite <- I2. cbn [md_at]. rewrite CD. cbn [negb]. rewrite orb_true_r. reflexivity.
  - replace (S b - a)%nat with (b - a + 1)%nat by lia. rewrite occ_app, I3. cbn [occurrences]. replace (a + (b - a) + 0)%nat with b by lia. rewrite P. reflexivity.
Qed.
Lemma md_after : forall n, (n0 <= n)%nat -> (t0 <= E n)%nat.
Proof.
  intros n H. destruct (md_E n) as [A B]. destruct (Nat.le_gt_cases t0 (E n)) as [|LT]; [assumption|].
  pose proof (md_mono (S (E n)) t0 LT) as Q. rewrite md_S, A, B in Q. unfold n0 in H. lia.
Qed.
Lemma md_next : forall n, (S (E n) <= E (S n))%nat.
Proof.
  intros n. destruct (md_E n) as [A B]. destruct (md_E (S n)) as [A' B'].
  destruct (Nat.le_gt_cases (S (E n)) (E (S n))) as [|LT]; [assumption|]. pose proof (md_mono (E (S n)) (E n) ltac:(lia)). lia.
Qed.
Lemma md_E_le : forall a b, (a <= b)%nat -> (E a <= E b)%nat.
Proof. intros a b H. induction H as [|b H IH]; [lia|]. pose proof (md_next b). lia. Qed.
Lemma md_link : forall n, (n0 <= n)%nat -> off (E (S n)) = off (S (E n)) /\ md_at (E (S n)) = md_at (S (E n)) /\ occurrences (pops mem ra ii) (S (E n)) (E (S n) - S (E n)) = 0%nat.
Proof.
  intros n H. destruct (md_E n) as [A B]. destruct (md_E (S n)) as [_ B']. pose proof (md_after n H).
  apply md_still; [lia|apply md_next|]. rewrite md_S, A, B, B'. lia.
Qed.

Hypothesis Hready : forall x, ot_ready (i x) = true.
Variables (M : Z -> Z) (junk : nat -> Z).
Let o n := ot_px shift aw M (junk n) (st (E n)) (i (E n)).
Let dv n := ot_dv shift aw (st (E n)) (i (E n)).
Let V n := md_head (E n).
Let A n := snd (md_at (E n)).
Let T n := fr_torn (fst (md_at (E n))).
Let pos n := Z.of_nat (fr_pos (fst (md_at (E n)))).

Lemma md_off : forall n, (n0 <= n)%nat -> off (E n) = Some (V n) /\ whole_set shift aw depth (V n) /\ Hm <= frame_len (V n).
Proof.
  intros n H. pose proof (md_after n H) as TE. assert (OV : off (E n) = Some (V n)).
  { unfold V, md_head. pose proof (mi_off _ (md_inv_all (E n) TE)) as X. destruct (off (E n)); [reflexivity|congruence]. }
  split; [exact OV|]. exact (Hsets (E n) (V n) TE OV).
Qed.
Lemma md_valid : forall n, (n0 <= n)%nat -> vt_valid (ot_vt shift aw (st (E n))) = true /\
  vt_head (ot_vt shift aw (st (E n))) (ot_ti shift aw (st (E n)) (i (E n))) = rp (V n).
Proof. intros n H. destruct (md_off n H) as [O _]. unfold vt_valid, vt_head. cbn [ot_vt vt_q]. fold (off (E n)). rewrite O. auto. Qed.
Lemma md_transfer : forall n, (n0 <= n)%nat -> md_xfer (E n) = negb (px_de (o n) && negb (dv n)).
Proof.
  intros n H. destruct (md_valid n H) as [HV _]. unfold md_xfer, vt_xfer, vo_transfer, vo_valid. unfold o, dv, ot_px, ot_dv, vt_px. cbv zeta. cbn [tx_px px_de vi_valid vi_ready].
  set (s := ot_vt shift aw (st (E n))) in *. set (x := ot_ti shift aw (st (E n)) (i (E n))) in *.
  assert (VV : vi_valid (vt_vi s x) = true) by exact HV. rewrite VV. cbn [andb].
  assert (RR : vi_ready (vt_vi s x) = true) by (unfold x; cbn [vt_vi vi_ready ot_ti ti_ready]; apply Hready). rewrite RR, andb_true_r.
  destruct (tg_de true (vt_tg s)), (vi_dv (vt_vi s x)); reflexivity.
Qed.
Lemma md_end : forall n, (n0 <= n)%nat -> pops mem ra ii (E n) = frame_end o dv V pos n.
Proof.
  intros n H. rewrite (md_pop (E n) (md_after n H) (md_inv_all _ (md_after n H))), (proj1 (md_E n)). cbn [andb]. unfold frame_end. rewrite (md_transfer n H). f_equal.
  destruct (md_off n H) as (_ & W & _). pose proof (md_size (V n) W) as SZ. fold (V n). unfold pos.
  destruct (Nat.eqb_spec (fr_pos (fst (md_at (E n)))) (frame_size (rp (V n)))) as [EQ|NE], (Z.eqb_spec (Z.of_nat (fr_pos (fst (md_at (E n))))) (frame_len (V n))); try reflexivity; lia.
Qed.
Lemma md_goes_on : forall n, (n0 <= n)%nat -> goes_on o dv V A T pos n.
Proof.
  intros n H. pose proof (md_after n H) as TE. destruct (md_link n H) as (K1 & K2 & _). pose proof (md_end n H) as PE. unfold frame_end in PE.
  assert (GS : md_at (S (E n)) = (fr_step (fst (md_at (E n))) (rp (V n)) (md_xfer (E n)) (length (ot_reads (st (S (E n))))),
       if md_xfer (E n) && (fr_pos (fst (md_at (E n))) =? frame_size (rp (V n)))%nat then V n else A n)).
  { cbn [md_at]. replace (E n <? t0)%nat with false by (symmetry; apply Nat.ltb_ge; lia). rewrite (proj1 (md_E n)). reflexivity. }
  destruct (md_off n H) as (OV & W & _). pose proof (md_size (V n) W) as SZ.
  assert (VS : pops mem ra ii (E n) = false -> V (S n) = V n).
  { intros P. unfold V at 1. unfold md_head. rewrite K1, (md_held _ _ OV P). reflexivity. }
  unfold goes_on, A, T, pos. rewrite K2, GS. cbn [fst snd]. rewrite (md_transfer n H) in *. unfold pos in PE. fold (V n) in *. unfold fr_step.
  destruct (px_de (o n) && negb (dv n)); cbn [negb andb] in *; [auto|].
  destruct (Nat.eqb_spec (fr_pos (fst (md_at (E n)))) (frame_size (rp (V n)))) as [EQ|NE], (Z.eqb_spec (Z.of_nat (fr_pos (fst (md_at (E n))))) (frame_len (V n))); try lia; cbn [fr_pos fr_torn].
  - auto.
  - split; [exact (VS PE)|]. split; [reflexivity|]. split; [reflexivity|]. lia.
Qed.
Lemma md_word : forall v q, (vp_base (rp v) + q) mod 2 ^ aw = picture_word shift aw v q.
Proof. intros v q. unfold rp, regs_param, dr_words, trunc, picture_word. cbn [vp_base]. apply Zplus_mod_idemp_l. Qed.
Lemma md_point : forall n, (n0 <= n)%nat -> shows_point shift aw M (V n) (A n) (T n) (pos n) (o n) (dv n) /\ 0 <= pos n <= frame_len (V n) /\ (T n <= depth)%nat /\
  (forall a, ot_addr shift aw depth (st (E n)) (i (E n)) = Some a -> exists q, 0 <= q < p_hres (timing_of (V n)) * p_vres (timing_of (V n)) /\ a = picture_word shift aw (V n) q).
Proof.
  intros n H. pose proof (md_after n H) as TE. destruct (md_off n H) as (OV & W & _). pose proof (md_size (V n) W) as SZ. destruct (md_valid n H) as [HV HH].
  pose proof (mi_core _ (md_inv_all (E n) TE)) as C. fold (V n) in C.
  assert (OD : px_de (o n) = tg_de true (vt_tg (ot_vt shift aw (st (E n)))) /\ px_hs (o n) = t_hs (vt_tg (ot_vt shift aw (st (E n)))) /\ px_vs (o n) = t_vs (vt_tg (ot_vt shift aw (st (E n))))).
  { unfold o, ot_px, vt_px. cbv zeta. cbn [tx_px px_de px_hs px_vs vi_valid vt_vi]. rewrite HV. auto. }
  destruct OD as (O1 & O2 & O3). split; [|split; [|split]].
  - unfold shows_point. cbv zeta. rewrite O1, O2, O3. split.
    + intros P0. rewrite (core_idle aw depth _ _ _ (md_good _ W) C ltac:(unfold pos in P0; lia)). auto.
    + intros y x Hy Hx EQ. destruct (core_shows aw depth Haw _ _ _ (md_good _ W) C y x Hy Hx EQ) as (S1 & S2 & S3 & S4).
      split; [exact S1|]. split; [exact S2|]. split; [exact S3|]. intros DV Lx Ly.
      assert (NE : vt_reads (ot_vt shift aw (st (E n))) <> []).
      { unfold dv, ot_dv in DV. intro NE. cbn [vt_vi vi_dv] in DV. rewrite NE, andb_false_r in DV. discriminate. }
      specialize (S4 Lx Ly NE). cbv zeta in S4. rewrite md_prev in S4. fold (A n) in S4. fold (T n) in S4.
      assert (SW : hd 0 (vt_reads (ot_vt shift aw (st (E n)))) = pixel_from shift aw (V n) (A n) (T n) (y * p_hres (timing_of (V n)) + x)).
      { unfold pixel_from. rewrite <- md_word. rewrite S4. change (vp_t (rp (V n))) with (timing_of (V n)). destruct (y * p_hres (timing_of (V n)) + x <? Z.of_nat (T n)); reflexivity. }
      rewrite <- SW. unfold o, ot_px, vt_px. cbv zeta. cbn [tx_px px_r px_g px_b vi_data]. fold (dv n) in DV. unfold dv, ot_dv in DV. rewrite DV.
      cbn [vt_vi vi_data]. unfold slice. change (2 ^ 0) with 1. rewrite ?Z.shiftr_0_r, ?Z.div_1_r. auto.
  - pose proof (ci_pos _ _ _ _ _ C). unfold pos. lia.
  - exact (ci_torn _ _ _ _ _ C).
  - intros a TK. unfold ot_addr in TK. destruct (core_asks aw depth Haw _ _ _ _ (md_good _ W) HV HH C a TK) as (q & Q & ->).
    exists q. split; [|apply md_word]. pose proof (g_len _ _ _ (md_good _ W)) as LE. change (vp_t (rp (V n))) with (timing_of (V n)) in LE. rewrite <- LE. exact Q.
Qed.
(** How old a set is. *)
Lemma md_ends : forall a b, (n0 <= a)%nat -> (a <= b)%nat -> occurrences (pops mem ra ii) (E a) (E b - E a) = occurrences (frame_end o dv V pos) a (b - a).
Proof.
  intros a b Ha AB. induction AB as [|b AB IH]; [rewrite !Nat.sub_diag; reflexivity|].
  pose proof (md_E_le a b AB) as EL.
  pose proof (md_next b). destruct (md_link b ltac:(lia)) as (_ & _ & Z0).
  replace (E (S b) - E a)%nat with ((E b - E a) + (1 + (E (S b) - S (E b))))%nat by lia. rewrite !occ_app, IH. cbn [occurrences].
  replace (E a + (E b - E a) + 0)%nat with (E b) by lia. replace (E a + (E b - E a) + 1)%nat with (S (E b)) by lia. rewrite Z0, (md_end b) by lia.
  replace (S b - a)%nat with (b - a + 1)%nat by lia. rewrite occ_app. cbn [occurrences]. replace (a + (b - a) + 0)%nat with b by lia. lia.
Qed.
Lemma md_fresh : forall n, (n0 <= n)%nat -> exists tau, (tau < E n)%nat /\ ini_en (ot_ini (st tau)) = true /\ V n = ini_regs (ot_ini (st tau)) /\
  forall n', (n0 <= n' <= n)%nat -> (4 <= occurrences (frame_end o dv V pos) n' (n - n'))%nat -> (E n' <= tau)%nat.
Proof.
  intros n H. destruct (md_off n H) as (OV & _). destruct (sw_from shift aw depth mem ra i Haw L (timing_of []) t0 (E n) (V n) OV) as (tau & T1 & T2 & T3 & T4).
  exists tau. do 3 (split; [assumption|]). intros n' N' F4. apply T4.
  - destruct N' as [_ N']. exact (md_E_le n' n N').
  - rewrite <- (md_ends n' n) in F4 by lia. exact F4.
Qed.
End Mode.

Lemma from_start : forall shift aw depth mem ra i u t0, 0 <= aw -> length mem = 4%nat -> enabled_from shift aw depth mem ra i u t0 ->
  let st := ot_run shift aw depth mem ra i in
  (forall x, (t0 <= x)%nat -> ini_en (ot_ini (st x)) = true) /\
  (ot_tg (st t0) = tg_init /\ ot_dr (st t0) = dr_init /\ ot_reads (st t0) = []) /\ ini_out (ot_ini (st t0)) <> None.
Proof.
  intros shift aw depth mem ra i u t0 Haw L (A & C & D) st. split; [|split; [|exact C]].
  - intros x X. unfold st. rewrite A. apply Nat.leb_le. fold st in C. destruct (ini_out (ot_ini (st t0))) as [v|] eqn:O; [|congruence].
    destruct (sw_from shift aw depth mem ra i Haw L (timing_of []) t0 t0 v O) as (tau & T1 & T2 & _). rewrite A in T2. apply Nat.leb_le in T2. lia.
  - exact (ot_idle shift aw depth mem ra i L t0 D).
Qed.

(** Software may rewrite all the registers while the output runs, as often as it likes.  As long as
    every set that comes out of the FIFO is whole (a mode with the length of its picture, larger than
    the reader's buffer), the output shows one complete frame after another: frame for frame the scan
    is that of the set [V] on offer, and the picture is the one of [V], with at most [depth] first
    pixels of the picture of the set [A] before; each set was in the registers at most four frame
    ends earlier.  Missing: sets taken while software is half way through (see the refutations). *)
Theorem C127_frame_by_frame_partial :
  forall shift aw depth mem ra (i : nat -> ot_in), 0 <= aw -> length mem = 4%nat ->
  forall u t0, enabled_from shift aw depth mem ra i u t0 ->
  let st := ot_run shift aw depth mem ra i in
  forall Hm E, clocks i Hm E -> (forall x, ot_ready (i x) = true) ->
  (forall t v, ini_out (ot_ini (st t)) = Some v -> whole_set shift aw depth v /\ Hm <= frame_len v) ->
  forall M junk,
  let o n := ot_px shift aw M (junk n) (st (E n)) (i (E n)) in
  let dv n := ot_dv shift aw (st (E n)) (i (E n)) in
  let n0 := occurrences (fun x => ot_cd (i x)) 0 t0 in
  exists (V A : nat -> list Z) (T : nat -> nat) (pos : nat -> Z),
  (forall n, (n < n0)%nat -> px_de (o n) = false /\ px_hs (o n) = false /\ px_vs (o n) = false) /\
  pos n0 = 0 /\ T n0 = 0%nat /\
  forall n, (n0 <= n)%nat ->
    ini_out (ot_ini (st (E n))) = Some (V n) /\ (T n <= depth)%nat /\ 0 <= pos n <= frame_len (V n) /\
    shows_point shift aw M (V n) (A n) (T n) (pos n) (o n) (dv n) /\
    goes_on o dv V A T pos n /\
    (forall a, ot_addr shift aw depth (st (E n)) (i (E n)) = Some a ->
     exists q, 0 <= q < p_hres (timing_of (V n)) * p_vres (timing_of (V n)) /\ a = picture_word shift aw (V n) q) /\
    (exists tau, (u <= tau < E n)%nat /\ V n = ini_regs (ot_ini (st tau)) /\
     forall n', (n0 <= n' <= n)%nat -> (4 <= occurrences (frame_end o dv V pos) n' (n - n'))%nat -> (E n' <= tau)%nat).
Proof.
  intros shift aw depth mem ra i Haw L u t0 Hon st Hm E HE Hready Hsets M junk o dv n0.
  destruct (from_start shift aw depth mem ra i u t0 Haw L Hon) as (F1 & F3 & F4).
  pose proof (fun t v (_ : (t0 <= t)%nat) => Hsets t v) as HS.
  exists (fun n => md_head shift aw depth mem ra i (E n)), (fun n => snd (md_at shift aw depth mem ra i t0 (E n))),
    (fun n => fr_torn (fst (md_at shift aw depth mem ra i t0 (E n)))), (fun n => Z.of_nat (fr_pos (fst (md_at shift aw depth mem ra i t0 (E n))))).
  destruct Hon as (EN & ON & OFF).
  split; [exact (o_blank shift aw depth mem ra i L [] t0 E (proj1 HE) M junk OFF)|].
  assert (AT0 : md_at shift aw depth mem ra i t0 (E n0) = md_at shift aw depth mem ra i t0 t0).
  { destruct (proj1 HE n0) as [_ B]. apply (md_still shift aw depth mem ra i Haw L t0 Hm F1 F3 F4 HS E HE t0 (E n0) (le_n _)).
    - exact (md_after mem i L t0 Hm E HE n0 (le_n _)).
    - rewrite B. reflexivity. }
  rewrite AT0, md_at_start by lia. split; [reflexivity|]. split; [reflexivity|]. intros n Hn.
  split; [exact (proj1 (md_off shift aw depth mem ra i Haw L t0 Hm F1 F3 F4 HS E HE n Hn))|].
  destruct (md_point shift aw depth mem ra i Haw L t0 Hm F1 F3 F4 HS E HE M junk n Hn) as (P1 & P2 & P3 & P4).
  split; [exact P3|]. split; [exact P2|]. split; [exact P1|].
  split; [exact (md_goes_on shift aw depth mem ra i Haw L t0 Hm F1 F3 F4 HS E HE Hready M junk n Hn)|].
  split; [exact P4|].
  destruct (md_fresh shift aw depth mem ra i Haw L t0 Hm F1 F3 F4 HS E HE Hready M junk n Hn) as (tau & T1 & T2 & T3 & T4).
  exists tau. rewrite EN in T2. apply Nat.leb_le in T2. split; [lia|]. split; [exact T3|exact T4].
Qed.
Print Assumptions C127_frame_by_frame_partial.

(** The machine of [goes_on] once the registers are left alone. *)
Section Settle.
Variables (o : nat -> px) (dv : nat -> bool) (V A : nat -> list Z) (T : nat -> nat) (pos : nat -> Z) (n0 : nat).
Hypothesis Hgo : forall n, (n0 <= n)%nat -> goes_on o dv V A T pos n.
Hypothesis Hpos : forall n, (n0 <= n)%nat -> 0 <= pos n <= frame_len (V n).
Variables (R : list Z) (n1 : nat) (Fx : Z).
Hypothesis Hn1 : (n0 <= n1)%nat.
Let ends n := occurrences (frame_end o dv V pos) n1 (n - n1).
Let moved a n := Z.of_nat n - Z.of_nat a - (Z.of_nat (underflows o dv n) - Z.of_nat (underflows o dv a)).
Hypothesis HV : forall n, (n1 <= n)%nat -> (4 <= ends n)%nat -> V n = R.
Hypothesis HF : forall n, (n0 <= n)%nat -> frame_len (V n) <= Fx.
Lemma se_S : forall n, (n1 <= n)%nat -> ends (S n) = (ends n + if frame_end o dv V pos n then 1 else 0)%nat.
Proof.
  intros n H. unfold ends. replace (S n - n1)%nat with (n - n1 + 1)%nat by lia. rewrite occ_app. cbn [occurrences]. replace (n1 + (n - n1) + 0)%nat with n by lia. reflexivity.
Qed.
Lemma se_moved : forall a n, moved a (S n) = moved a n + if px_de (o n) && negb (dv n) then 0 else 1.
Proof.
  intros a n. unfold moved. change (underflows o dv (S n)) with (underflows o dv n + if px_de (o n) && negb (dv n) then 1 else 0)%nat.
  destruct (px_de (o n) && negb (dv n)); lia.
Qed.
Lemma se_prev : forall n, (n1 <= n)%nat -> (5 <= ends n)%nat -> A n = R.
Proof.
  intros n H. induction H as [|n H IH]; [unfold ends; rewrite Nat.sub_diag; cbn; lia|]. rewrite (se_S n H). intros E5.
  specialize (Hgo n ltac:(lia)). unfold goes_on in Hgo. unfold frame_end in E5. destruct (px_de (o n) && negb (dv n)); cbn [negb andb] in E5.
  - destruct Hgo as (_ & -> & _). apply IH. lia.
  - destruct (pos n =? frame_len (V n)).
    + destruct Hgo as [-> _]. apply HV; [exact H|lia].
    + destruct Hgo as (_ & -> & _). apply IH. lia.
Qed.
Lemma se_ends : forall n, (n1 <= n)%nat -> moved n1 n + pos n1 <= Z.of_nat (ends n) * Fx + pos n /\ (1 <= Z.of_nat (ends n) -> 1 <= pos n).
Proof.
  intros n H. induction H as [|n H [I J]]; [unfold ends, moved; rewrite Nat.sub_diag; cbn [occurrences]; lia|]. rewrite (se_S n H), se_moved.
  specialize (Hgo n ltac:(lia)). specialize (Hpos n ltac:(lia)). specialize (HF n ltac:(lia)). unfold goes_on in Hgo. unfold frame_end.
  destruct (px_de (o n) && negb (dv n)); cbn [negb andb].
  - destruct Hgo as (_ & _ & _ & ->). rewrite Nat.add_0_r. split; [lia|exact J].
  - destruct (Z.eqb_spec (pos n) (frame_len (V n))) as [EQ|NE].
    + destruct Hgo as [_ ->]. rewrite Nat2Z.inj_add. split; [nia|lia].
    + destruct Hgo as (_ & _ & _ & ->). rewrite Nat.add_0_r. split; lia.
Qed.
Lemma se_mono : forall a b, (n1 <= a)%nat -> (a <= b)%nat -> (ends a <= ends b)%nat.
Proof. intros a b H1 H. induction H as [|b H IH]; [lia|]. rewrite se_S by lia. lia. Qed.
Lemma se_pos : forall n2, (n1 <= n2)%nat -> (5 <= ends n2)%nat -> 0 < frame_len R -> forall n, (n2 <= n)%nat ->
  V n = R /\ A n = R /\ pos n = 1 + (pos n2 - 1 + moved n2 n) mod frame_len R.
Proof.
  intros n2 H2 E5 FP n H. pose proof (se_mono n2 n H2 H) as EM. pose proof (HV n ltac:(lia) ltac:(lia)) as VN. split; [exact VN|]. split; [apply se_prev; lia|].
  induction H as [|n H IH].
  - replace (pos n2 - 1 + moved n2 n2) with (pos n2 - 1) by (unfold moved; lia). rewrite Z.mod_small; [lia|]. pose proof (Hpos n2 ltac:(lia)) as HP. rewrite VN in HP.
    destruct (se_ends n2 H2) as [_ J]. lia.
  - pose proof (se_mono n2 n H2 H) as EM'. pose proof (HV n ltac:(lia) ltac:(lia)) as VN'. specialize (IH EM' VN').
    pose proof (Hgo n ltac:(lia)) as GO. unfold goes_on in GO. rewrite se_moved. rewrite VN' in GO. destruct (px_de (o n) && negb (dv n)).
    + destruct GO as (_ & _ & _ & ->). rewrite Z.add_0_r. exact IH.
    + rewrite Z.add_assoc. set (k := pos n2 - 1 + moved n2 n) in *. pose proof (Z.mod_pos_bound k (frame_len R) FP) as MB.
      destruct (Z.eqb_spec (pos n) (frame_len R)) as [EQ|NE].
      * destruct GO as [_ ->]. rewrite <- Zplus_mod_idemp_l. replace (k mod frame_len R + 1) with (0 + 1 * frame_len R) by lia.
        rewrite Z.mod_add, Z.mod_0_l by lia. reflexivity.
      * destruct GO as (_ & _ & _ & ->). rewrite <- Zplus_mod_idemp_l. rewrite (Z.mod_small (k mod frame_len R + 1)) by lia. lia.
Qed.
End Settle.

(** After a change of mode: the registers hold [R] from [w] on. Once five frames' worth of clocks
    (of the longest mode that was used) have gone by, the output shows the mode and the picture of
    [R], and nothing else, for ever. *)
Theorem C127_settles_partial :
  forall shift aw depth mem ra (i : nat -> ot_in), 0 <= aw -> length mem = 4%nat ->
  forall u t0, enabled_from shift aw depth mem ra i u t0 ->
  let st := ot_run shift aw depth mem ra i in
  forall Hm Fx E, clocks i Hm E -> (forall x, ot_ready (i x) = true) ->
  (forall t v, ini_out (ot_ini (st t)) = Some v -> whole_set shift aw depth v /\ Hm <= frame_len v <= Fx) ->
  forall M junk,
  let o n := ot_px shift aw M (junk n) (st (E n)) (i (E n)) in
  let dv n := ot_dv shift aw (st (E n)) (i (E n)) in
  let n0 := occurrences (fun x => ot_cd (i x)) 0 t0 in
  let moved a n := Z.of_nat n - Z.of_nat a - (Z.of_nat (underflows o dv n) - Z.of_nat (underflows o dv a)) in
  forall w R, (forall x, (w <= x)%nat -> ini_regs (ot_ini (st x)) = R) ->
  forall n1 n2, (n0 <= n1 <= n2)%nat -> (w <= E n1)%nat -> 5 * Fx < moved n1 n2 ->
  let p := timing_of R in
  exists ph, 0 <= ph < frame_len R /\
  forall n, (n2 <= n)%nat -> forall f y x, 0 <= f -> 0 <= y < p_vscan p + 1 -> 0 <= x < p_hscan p + 1 ->
  ph + moved n2 n = (f * (p_vscan p + 1) + y) * (p_hscan p + 1) + x ->
  px_de (o n) = (x <? p_hres p) && (y <? p_vres p) /\
  px_hs (o n) = (p_hs_start p <=? x) && (x <? p_hs_end p) /\
  px_vs (o n) = (p_vs_start p <=? y) && (y <? p_vs_end p) /\
  (dv n = true -> x < p_hres p -> y < p_vres p ->
   let d := M (picture_word shift aw R (y * p_hres p + x)) in
   px_r (o n) = d mod 2 ^ 8 /\ px_g (o n) = d / 2 ^ 8 mod 2 ^ 8 /\ px_b (o n) = d / 2 ^ 16 mod 2 ^ 8).
Proof.
  intros shift aw depth mem ra i Haw L u t0 Hon st Hm Fx E HE Hready Hsets M junk o dv n0 moved w R HR n1 n2 N W MV p.
  destruct (C127_frame_by_frame_partial shift aw depth mem ra i Haw L u t0 Hon Hm E HE Hready
    ltac:(intros t v O; destruct (Hsets t v O) as (W1 & W2 & _); auto) M junk) as (V & A & T & pos & _ & _ & _ & FR).
  fold st o dv n0 in FR.
  assert (Hgo : forall n, (n0 <= n)%nat -> goes_on o dv V A T pos n) by (intros n H; exact (proj1 (proj2 (proj2 (proj2 (proj2 (FR n H))))))).
  assert (Hpos : forall n, (n0 <= n)%nat -> 0 <= pos n <= frame_len (V n)) by (intros n H; exact (proj1 (proj2 (proj2 (FR n H))))).
  assert (HF : forall n, (n0 <= n)%nat -> frame_len (V n) <= Fx) by (intros n H; exact (proj2 (proj2 (Hsets _ _ (proj1 (FR n H)))))).
  assert (HV : forall n, (n1 <= n)%nat -> (4 <= occurrences (frame_end o dv V pos) n1 (n - n1))%nat -> V n = R).
  { intros n H F4. destruct (FR n ltac:(lia)) as (_ & _ & _ & _ & _ & _ & tau & T1 & -> & T3). apply HR. specialize (T3 n1 ltac:(lia) F4). lia. }
  assert (E5 : (5 <= occurrences (frame_end o dv V pos) n1 (n2 - n1))%nat).
  { destruct (se_ends o dv V A T pos n0 Hgo Hpos n1 Fx ltac:(lia) HF n2 ltac:(lia)) as [I _]. fold (moved n1 n2) in I.
    pose proof (Hpos n1 ltac:(lia)). pose proof (Hpos n2 ltac:(lia)). pose proof (HF n2 ltac:(lia)). nia. }
  assert (FP : 0 < frame_len R).
  { pose proof (HV n2 ltac:(lia) ltac:(lia)) as VN. destruct (FR n2 ltac:(lia)) as (OV & _). destruct (Hsets _ _ OV) as [WS _]. rewrite VN in WS. destruct WS as [ok _ _ _ _ _ _ _]. destruct ok. unfold frame_len. nia. }
  pose proof (se_pos o dv V A T pos n0 Hgo Hpos R n1 Fx ltac:(lia) HV HF n2 ltac:(lia) E5 FP) as SP. change (forall n, (n2 <= n)%nat -> V n = R /\ A n = R /\ pos n = 1 + (pos n2 - 1 + moved n2 n) mod frame_len R) in SP.
  exists (pos n2 - 1). split.
  { destruct (se_ends o dv V A T pos n0 Hgo Hpos n1 Fx ltac:(lia) HF n2 ltac:(lia)) as [_ J]. pose proof (Hpos n2 ltac:(lia)) as HP. rewrite (HV n2 ltac:(lia) ltac:(lia)) in HP. lia. }
  intros n H f y x Hf Hy Hx EQ. destruct (SP n H) as (VN & AN & PN). rewrite EQ in PN.
  replace ((f * (p_vscan p + 1) + y) * (p_hscan p + 1) + x) with (y * (p_hscan p + 1) + x + f * frame_len R) in PN by (unfold frame_len; fold p; ring).
  rewrite Z.mod_add, Z.mod_small in PN by (unfold frame_len; fold p; nia).
  destruct (FR n ltac:(lia)) as (_ & _ & _ & SH & _). rewrite VN, AN in SH. destruct SH as [_ SH]. fold p in SH.
  destruct (SH y x Hy Hx ltac:(lia)) as (S1 & S2 & S3 & S4). split; [exact S1|]. split; [exact S2|]. split; [exact S3|]. intros DV Lx Ly. specialize (S4 DV Lx Ly).
  unfold pixel_from in S4. destruct (y * p_hres p + x <? Z.of_nat (T n)); exact S4.
Qed.
Print Assumptions C127_settles_partial.
