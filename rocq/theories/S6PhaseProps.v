(** C124: what the phase register means. *)
From Coq Require Import ZArith List Bool Arith Lia.
From Verif Require Import Hdl Trace SerialModel SerialProps CdcModel CdcProofs CdcProps StatusModel S6CtlModel S6CtlProps.
Import ListNotations.
Open Scope nat_scope.

Lemma race_bit : forall m a b j, (0 <= j)%Z -> Z.testbit (bit_race m a b) j = if Z.testbit m j then Z.testbit b j else Z.testbit a j.
Proof. intros m a b j J. unfold bit_race. rewrite Z.lxor_spec, Z.land_spec, Z.lxor_spec. destruct (Z.testbit m j), (Z.testbit a j), (Z.testbit b j); reflexivity. Qed.
Lemma low_clear : forall w l j, (0 <= l < 2 ^ w)%Z -> (w <= j)%Z -> Z.testbit l j = false.
Proof.
  intros w l j [L0 L1] J. destruct (Z.eq_dec l 0) as [->|NZ]; [apply Z.bits_0|]. apply Z.bits_above_log2; [exact L0|].
  apply Z.log2_lt_pow2; [lia|]. eapply Z.lt_le_trans; [exact L1|]. apply Z.pow_le_mono_r; lia.
Qed.
Lemma top_bit : forall w l, (1 <= w)%Z -> (0 <= l < 2 ^ w)%Z -> Z.testbit l (w - 1) = (2 ^ (w - 1) <=? l)%Z.
Proof.
  intros w l W L. assert (P2 : (2 ^ w = 2 * 2 ^ (w - 1))%Z) by (rewrite <- Z.pow_succ_r by lia; f_equal; lia).
  assert (PP : (0 < 2 ^ (w - 1))%Z) by (apply Z.pow_pos_nonneg; lia).
  destruct (Z.leb_spec (2 ^ (w - 1)) l) as [H|H].
  - apply Z.testbit_true; [lia|]. replace (l / 2 ^ (w - 1))%Z with 1%Z; [reflexivity|]. apply (Z.div_unique l (2 ^ (w - 1)) 1 (l - 2 ^ (w - 1))); lia.
  - apply (low_clear (w - 1)); lia.
Qed.

(** Neighbouring values of the accumulator, sampled with any mixture of old and new bits. *)
Lemma flags_race : forall w m l l', (2 <= w)%Z -> (0 <= l <= 2 ^ w - 1)%Z -> (0 <= l' <= 2 ^ w - 1)%Z ->
  (l - 1 <= l' <= l + 1 \/ l' = 2 ^ (w - 1))%Z -> let f := dl_flags w (bit_race m l l') in
  ((f = 0 \/ f = 1 \/ f = 2) /\ (f = 1 -> 2 ^ (w - 1) - 1 <= l) /\ (f = 2 -> l <= 2 ^ (w - 1)))%Z.
Proof.
  intros w m l l' W L L' N f.
  assert (P2 : (2 ^ w = 2 * 2 ^ (w - 1))%Z) by (rewrite <- Z.pow_succ_r by lia; f_equal; lia).
  assert (PP : (2 <= 2 ^ (w - 1))%Z) by (apply (Z.pow_le_mono_r 2 1); lia).
  pose proof (top_bit w l ltac:(lia) ltac:(lia)) as B. pose proof (top_bit w l' ltac:(lia) ltac:(lia)) as B'. pose proof (race_bit m l l' (w - 1) ltac:(lia)) as R.
  unfold f, dl_flags, too_late, too_early. destruct (Z.eqb_spec (bit_race m l l') (2 ^ w - 1)) as [E|E].
  - destruct (Z.eqb_spec (bit_race m l l') 0) as [E'|E']; [exfalso; lia|]. split; [lia|]. split; [|lia]. intros _.
    destruct (Z.le_gt_cases (2 ^ (w - 1) - 1) l) as [G|G]; [exact G|exfalso].
    assert (ONES : forall j, (0 <= j < w)%Z -> Z.testbit (bit_race m l l') j = true).
    { intros j J. rewrite E. replace (2 ^ w - 1)%Z with (Z.ones w) by (rewrite Z.ones_equiv; lia). apply Z.ones_spec_low. exact J. }
    destruct (Z.eq_dec l' (2 ^ (w - 1))) as [EL|NE].
    + assert (A : l = Z.ones (w - 1)); [|rewrite Z.ones_equiv in A; lia].
      apply Z.bits_inj'. intros j J. destruct (Z.lt_ge_cases j (w - 1)) as [JW|JW].
      * specialize (ONES j ltac:(lia)). rewrite race_bit in ONES by lia. rewrite EL, Z.pow2_bits_false in ONES by lia. destruct (Z.testbit m j); [discriminate|].
        rewrite ONES, Z.ones_spec_low by lia. reflexivity.
      * rewrite Z.ones_spec_high by lia. apply (low_clear (w - 1)); lia.
    + specialize (ONES (w - 1)%Z ltac:(lia)). rewrite R, B, B' in ONES. destruct (Z.leb_spec (2 ^ (w - 1)) l); [lia|]. destruct (Z.leb_spec (2 ^ (w - 1)) l'); [lia|].
      destruct (Z.testbit m (w - 1)); discriminate.
  - destruct (Z.eqb_spec (bit_race m l l') 0) as [E'|E']; [|split; [lia|]; split; lia]. split; [lia|]. split; [lia|]. intros _.
    destruct (Z.le_gt_cases l (2 ^ (w - 1))) as [G|G]; [exact G|exfalso]. rewrite E', Z.bits_0, B, B' in R.
    destruct (Z.leb_spec (2 ^ (w - 1)) l); [|lia]. destruct (Z.leb_spec (2 ^ (w - 1)) l'); [|lia]. destruct (Z.testbit m (w - 1)); discriminate.
Qed.
Lemma flags_same : forall w m l, dl_flags w (bit_race m l l) = dl_flags w l.
Proof. intros w m l. unfold bit_race. rewrite Z.lxor_nilpotent, Z.land_0_r, Z.lxor_0_r. reflexivity. Qed.

Section C124.
Variables (w : Z) (i : nat -> dl_in).
Hypothesis W : (2 <= w)%Z.
(** What the phase detector says at an instant: late counts up, early counts down, nothing while a line is busy or without an edge of pix2x. *)
Definition vote (n : nat) : Z :=
  (if dl_pix (i n) && negb (dl_mbusy (i n)) && negb (dl_sbusy (i n)) && dl_valid (i n) then if dl_incdec (i n) then -1 else 1 else 0)%Z.
(** Software writes phase_reset. *)
Definition resets (n : nat) : Prop := dl_sys (i n) = true /\ dl_pre (i n) = true.
Let late n := dl_late (s6 w i n).
Let fs n := dl_sys (i n).
Let fp n := dl_pix (i n).
Let rs n := fp n && ps_o (dl_lrst (s6 w i n)).

Lemma late_saturating : saturating w vote rs late.
Proof.
  assert (P : (1 <= 2 ^ (w - 1))%Z) by (apply (Z.pow_le_mono_r 2 0); lia).
  assert (P2 : (2 ^ w = 2 * 2 ^ (w - 1))%Z) by (rewrite <- Z.pow_succ_r by lia; f_equal; lia).
  assert (RG : forall n, (0 <= late n < 2 ^ w)%Z).
  { induction n as [|n IH]; [change (late 0) with (2 ^ (w - 1))%Z; lia|].
    unfold late. change (s6 w i (S n)) with (dl_step w (s6 w i n) (i n)). unfold dl_step; cbv zeta; cbn [dl_late]. fold (late n). destruct (dl_pix (i n)); [|exact IH].
    unfold l6_step; cbn [l6_reset l6_mbusy l6_sbusy l6_valid l6_incdec].
    destruct (ps_o _); [apply trunc_range; lia|]. destruct (_ && _); [|exact IH]. destruct (_ && _); [apply trunc_range; lia|]. destruct (_ && _); [apply trunc_range; lia|exact IH]. }
  apply saturating_intro; [lia| |reflexivity|].
  - intros n. unfold vote. destruct (_ && _); [destruct (dl_incdec _); lia|lia].
  - intros n. unfold late at 1. change (s6 w i (S n)) with (dl_step w (s6 w i n) (i n)). unfold dl_step; cbv zeta; cbn [dl_late]. fold (late n).
    unfold rs, fp, vote. destruct (dl_pix (i n)); cbn [andb].
    + unfold l6_step; cbn [l6_reset l6_mbusy l6_sbusy l6_valid l6_incdec]. destruct (ps_o _); [apply trunc_id; lia|].
      unfold too_late, too_early. destruct (late n =? 2 ^ w - 1)%Z; cbn [negb orb]; [rewrite !andb_false_r; reflexivity|].
      destruct (late n =? 0)%Z; cbn [negb orb]; [rewrite !andb_false_r; reflexivity|].
      destruct (dl_mbusy (i n)), (dl_sbusy (i n)), (dl_valid (i n)), (dl_incdec (i n)); cbn [negb andb orb]; rewrite ?Z.add_0_r; try reflexivity; symmetry; apply trunc_id; apply RG.
    + rewrite Z.add_0_r. destruct (_ || _); [reflexivity|]. symmetry. apply trunc_id, RG.
Qed.

Lemma lrst_seen : forall n, ps_o (dl_lrst (s6 w i n)) = seen fs fp (fun n => dl_pre (i n)) n.
Proof.
  assert (G : forall n, dl_lrst (s6 w i n) = ps_run (cdc_inp fs fp (fun n => dl_pre (i n))) n).
  { induction n as [|n IH]; [reflexivity|]. rewrite ps_run_S. rewrite <- IH. reflexivity. }
  intros n. unfold seen. rewrite G. reflexivity.
Qed.

(** Reading: the flags at the second last edge of sys. *)
Lemma phase_read : forall k n, k < n -> fs k = true -> occurrences fs (S k) (n - S k) = 1 ->
  dl_phase (s6 w i n) = dl_flags w (bit_race (dl_race (i k)) (late k) (late (S k))).
Proof.
  intros k n K SK O.
  assert (A : forall d, occurrences fs (S k) d = 0 -> dl_pha (s6 w i (S k + d)) = dl_flags w (bit_race (dl_race (i k)) (late k) (late (S k)))).
  { induction d as [|d IH]; intros Z0.
    - rewrite Nat.add_0_r. unfold late at 2. change (s6 w i (S k)) with (dl_step w (s6 w i k) (i k)). unfold dl_step; cbv zeta; cbn [dl_pha dl_late]. unfold fs in SK. rewrite SK. reflexivity.
    - cbn [occurrences] in Z0. rewrite Nat.add_succ_r. change (s6 w i (S (S k + d))) with (dl_step w (s6 w i (S k + d)) (i (S k + d))).
      unfold dl_step; cbv zeta; cbn [dl_pha]. change (dl_sys (i (S k + d))) with (fs (S k + d)). destruct (fs (S k + d)); [lia|]. apply IH. lia. }
  assert (B : forall d, occurrences fs (S k) d = 1 -> dl_phase (s6 w i (S k + d)) = dl_flags w (bit_race (dl_race (i k)) (late k) (late (S k)))).
  { induction d as [|d IH]; intros Z1; [discriminate|]. cbn [occurrences] in Z1. rewrite Nat.add_succ_r. change (s6 w i (S (S k + d))) with (dl_step w (s6 w i (S k + d)) (i (S k + d))).
    unfold dl_phase, dl_step; cbv zeta; cbn [dl_phb]. change (dl_sys (i (S k + d))) with (fs (S k + d)). destruct (fs (S k + d)).
    - apply A. lia.
    - apply IH. lia. }
  replace n with (S k + (n - S k)) by lia. apply B, O.
Qed.
End C124.

(** Software resets the accumulator at [p]; the reset takes effect at the third edge of pix2x, [u].  A reading at [n] that was sampled (second last sys edge) at [k > u]
    is about the votes since [u]: saturation is read, and a reading of one side means that the votes since then were not on the other side. *)
Theorem C124_reading_partial : forall w i, (2 <= w)%Z ->
  let pix t := dl_pix (i t) in let sys t := dl_sys (i t) in
  forall p u, resets i p -> (forall q, resets i q -> q <> p -> separated pix p q) -> p < u -> pix u = true -> between pix p u = 2 ->
  forall k n, u < k -> k < n -> (forall q, p < q < n -> ~ resets i q) -> sys k = true -> occurrences sys (S k) (n - S k) = 1 ->
  let net m := error_sum (vote i) (S u) (m - S u) in
  let r := dl_phase (s6 w i n) in let top := (2 ^ (w - 1) - 1)%Z in let bottom := (- 2 ^ (w - 1))%Z in
  (r = 0 \/ r = 1 \/ r = 2)%Z /\
  (r = 1%Z -> (-1 <= net k)%Z \/ exists m, u < m <= k /\ net m = top) /\
  (r = 2%Z -> (net k <= 0)%Z \/ exists m, u < m <= k /\ net m = bottom) /\
  (forall m, u < m <= k -> net m = top -> (forall j, u < j < m -> (bottom < net j)%Z) -> r = 1%Z) /\
  (forall m, u < m <= k -> net m = bottom -> (forall j, u < j < m -> (net j < top)%Z) -> r = 2%Z).
Proof.
  intros w i W pix sys p u RP SEP PU XU BU k n UK KN NR SK OS net r top bottom.
  set (rs n := dl_pix (i n) && ps_o (dl_lrst (s6 w i n))). set (late n := dl_late (s6 w i n)).
  assert (SAT : saturating w (vote i) rs late) by exact (late_saturating w i W).
  assert (P2 : (2 ^ w = 2 * 2 ^ (w - 1))%Z) by (rewrite <- Z.pow_succ_r by lia; f_equal; lia).
  assert (PP : (2 <= 2 ^ (w - 1))%Z) by (apply (Z.pow_le_mono_r 2 1); lia).
  assert (RU : rs u = true).
  { unfold rs. change (dl_pix (i u)) with (pix u). rewrite XU, (lrst_seen w i). cbn [andb]. apply (C73_delivered sys pix (fun n => dl_pre (i n)) p u); try assumption. }
  assert (NRS : forall t, u < t < n -> rs t = false).
  { intros t T. destruct (rs t) eqn:E; [|reflexivity]. exfalso. unfold rs in E. apply andb_prop in E as [_ E]. rewrite (lrst_seen w i) in E.
    destruct (C73_nothing_else sys pix (fun n => dl_pre (i n)) t E) as (q & Q & G & B).
    assert (B3 : 3 <= between pix p t).
    { unfold between in *. replace (t - S p) with ((u - S p) + (1 + (t - S u))) by lia. rewrite !occ_app. replace (S p + (u - S p)) with u by lia.
      rewrite BU. cbn [occurrences]. rewrite Nat.add_0_r, XU. lia. }
    assert (QP : q <= p) by (destruct (Nat.le_gt_cases q p); [assumption|]; exfalso; apply (NR q ltac:(lia) G)).
    unfold between in B, B3. replace (t - S q) with ((p - q) + (t - S p)) in B by lia. rewrite occ_app in B. replace (S q + (p - q)) with (S p) in B by lia. lia. }
  assert (L0 : late (S u) = (2 ^ (w - 1))%Z) by exact (sat_reset _ _ _ _ SAT u RU).
  assert (RN : forall a d, u < a -> a + d <= n -> forall j, a <= j < a + d -> rs j = false) by (intros a d A D j J; apply NRS; lia).
  assert (NET : forall m, u < m <= n -> (forall j, u < j < m -> (bottom < net j < top)%Z) -> late m = (2 ^ (w - 1) + net m)%Z).
  { intros m M J. unfold net. rewrite <- (sat_sum _ _ _ _ SAT (S u) (m - S u) L0); [f_equal; lia|apply RN; lia|].
    intros j Hj. specialize (J (S u + j) ltac:(lia)). unfold net in J. replace (S u + j - S u) with j in J by lia. unfold bottom, top in J. lia. }
  assert (FZ : forall m d, u < m -> m + d <= n -> (late m = 0 \/ late m = 2 ^ w - 1)%Z -> late (m + d) = late m).
  { intros m d M D H. apply (sat_frozen _ _ _ _ SAT m d H). apply RN; lia. }
  assert (STEP : forall j, (-1 <= vote i j <= 1)%Z) by (intros j; unfold vote; destruct (_ && _); [destruct (dl_incdec _); lia|lia]).
  (** Either no limit has been met up to [k] or there is a first one. *)
  assert (CASES : forall d, S u + d <= k -> (forall j, u < j <= S u + d -> (bottom < net j < top)%Z) \/
     (exists m, u < m <= S u + d /\ (net m = top \/ net m = bottom) /\ (forall j, u < j < m -> (bottom < net j < top)%Z))).
  { induction d as [|d IH]; intros D.
    - left. intros j J. assert (j = S u) as -> by lia. unfold net. rewrite Nat.sub_diag. cbn [error_sum]. unfold bottom, top. lia.
    - destruct (IH ltac:(lia)) as [G|(m & M & H & G)]; [|right; exists m; split; [lia|]; split; assumption].
      pose proof (G (S u + d) ltac:(lia)) as GD. pose proof (STEP (S u + d)) as ST.
      assert (NS : net (S u + S d) = (net (S u + d)%nat + vote i (S u + d)%nat)%Z).
      { unfold net. replace (S u + S d - S u) with (S d) by lia. replace (S u + d - S u) with d by lia. reflexivity. }
      destruct (Z.eq_dec (net (S u + S d)) top) as [E|E]; [right; exists (S u + S d); split; [lia|]; split; [left; exact E|]; intros j J; apply G; lia|].
      destruct (Z.eq_dec (net (S u + S d)) bottom) as [E'|E']; [right; exists (S u + S d); split; [lia|]; split; [right; exact E'|]; intros j J; apply G; lia|].
      left. intros j J. destruct (Nat.eq_dec j (S u + S d)) as [->|NE]; [lia|apply G; lia]. }
  assert (RD : r = dl_flags w (bit_race (dl_race (i k)) (late k) (late (S k)))) by (apply (phase_read w i k n); assumption).
  assert (FR : let f := dl_flags w (bit_race (dl_race (i k)) (late k) (late (S k))) in ((f = 0 \/ f = 1 \/ f = 2) /\ (f = 1 -> 2 ^ (w - 1) - 1 <= late k) /\ (f = 2 -> late k <= 2 ^ (w - 1)))%Z).
  { apply flags_race; [exact W|apply (sat_range _ _ _ _ SAT)|apply (sat_range _ _ _ _ SAT)|]. left.
    pose proof (STEP k). destruct (sat_no_wrap _ _ _ _ SAT k (NRS k ltac:(lia))) as [-> | ->]; lia. }
  cbv zeta in FR. rewrite <- RD in FR. destruct FR as (F0 & F1 & F2).
  assert (HIT : forall m, u < m <= k -> (net m = top \/ net m = bottom) -> (forall j, u < j < m -> (bottom < net j < top)%Z) ->
     r = (if Z.eq_dec (net m) top then 1 else 2)%Z).
  { intros m M H G. pose proof (NET m ltac:(lia) G) as LM.
    assert (LL : (late m = 0 \/ late m = 2 ^ w - 1)%Z) by (unfold top, bottom in H; lia).
    assert (LK : late k = late m) by (replace k with (m + (k - m)) by lia; apply FZ; [lia|lia|exact LL]).
    assert (LK1 : late (S k) = late m) by (replace (S k) with (m + (S k - m)) by lia; apply FZ; [lia|lia|exact LL]).
    rewrite RD, LK, LK1, flags_same. unfold dl_flags, too_late, too_early. unfold top, bottom in *.
    destruct (Z.eq_dec (net m) (2 ^ (w - 1) - 1)) as [E|E].
    - rewrite (proj2 (Z.eqb_eq (late m) (2 ^ w - 1))) by lia. rewrite (proj2 (Z.eqb_neq (late m) 0)) by lia. reflexivity.
    - rewrite (proj2 (Z.eqb_neq (late m) (2 ^ w - 1))) by lia. rewrite (proj2 (Z.eqb_eq (late m) 0)) by lia. reflexivity. }
  assert (FIRST : forall m, u < m <= k -> (net m = top \/ net m = bottom) -> exists m', u < m' <= m /\ (net m' = top \/ net m' = bottom) /\ (forall j, u < j < m' -> (bottom < net j < top)%Z)).
  { intros m M H. destruct (CASES (m - S u) ltac:(lia)) as [G|(m' & M' & H' & G)]; replace (S u + (m - S u)) with m in * by lia.
    - specialize (G m ltac:(lia)). exfalso. lia.
    - exists m'. split; [exact M'|]. split; assumption. }
  split; [exact F0|]. split; [|split; [|split]].
  - intros E1. destruct (CASES (k - S u) ltac:(lia)) as [G|(m & M & H & G)]; replace (S u + (k - S u)) with k in * by lia.
    + left. specialize (F1 E1). rewrite (NET k ltac:(lia)) in F1 by (intros j J; apply G; lia). lia.
    + right. specialize (HIT m M H G). destruct (Z.eq_dec (net m) top) as [E|E]; [exists m; auto|exfalso; congruence].
  - intros E2. destruct (CASES (k - S u) ltac:(lia)) as [G|(m & M & H & G)]; replace (S u + (k - S u)) with k in * by lia.
    + left. specialize (F2 E2). rewrite (NET k ltac:(lia)) in F2 by (intros j J; apply G; lia). lia.
    + right. specialize (HIT m M H G). destruct (Z.eq_dec (net m) top) as [E|E]; [exfalso; congruence|]. exists m. split; [exact M|]. destruct H; [contradiction|assumption].
  - intros m M H J. destruct (FIRST m M (or_introl H)) as (m' & M' & H' & G'). specialize (HIT m' ltac:(lia) H' G'). rewrite HIT.
    destruct (Z.eq_dec (net m') top) as [E|E]; [reflexivity|]. exfalso. destruct H' as [H'|H']; [contradiction|].
    destruct (Nat.eq_dec m' m) as [->|NE]; [contradiction|]. specialize (J m' ltac:(lia)). lia.
  - intros m M H J. destruct (FIRST m M (or_intror H)) as (m' & M' & H' & G'). specialize (HIT m' ltac:(lia) H' G'). rewrite HIT.
    destruct (Z.eq_dec (net m') top) as [E|E]; [|reflexivity]. exfalso. 
    destruct (Nat.eq_dec m' m) as [->|NE]; [unfold top, bottom in *; lia|]. specialize (J m' ltac:(lia)). lia.
Qed.
Print Assumptions C124_reading_partial.

(** The flags are gates on the accumulator, so a sys edge that falls on a step from 128 to 127 can read eight ones.  Then software reads "too late" after one vote, for "too early". *)
Definition ex_glitch (n : nat) : dl_in :=
  {| dl_sys := true; dl_pix := true; dl_re := false; dl_r := 0%Z; dl_pre := false;
     dl_mbusy := false; dl_sbusy := false; dl_valid := n =? 4; dl_incdec := true; dl_race := 127%Z |}.
Lemma sum_nonpos : forall e a d, (forall n, (e n <= 0)%Z) -> (error_sum e a d <= 0)%Z.
Proof. intros e a d H. induction d as [|d IH]; cbn [error_sum]; [lia|]. specialize (H (a + d)). lia. Qed.
Theorem C124_true_readings_refuted :
  ~ (forall w i n, (2 <= w)%Z -> dl_phase (s6 w i n) = 1%Z -> exists a d, a + d <= n /\ (2 ^ (w - 1) - 1 <= error_sum (vote i) a d)%Z).
Proof.
  intros H. destruct (H 8%Z ex_glitch 6 ltac:(lia)) as (a & d & _ & S); [vm_compute; reflexivity|].
  pose proof (sum_nonpos (vote ex_glitch) a d) as N. change (2 ^ (8 - 1) - 1)%Z with 127%Z in S.
  assert (forall n, (vote ex_glitch n <= 0)%Z) as V by (intros n; unfold vote; cbn [dl_incdec ex_glitch]; destruct (_ && _); lia). specialize (N V). lia.
Qed.
Print Assumptions C124_true_readings_refuted.

(** The Series 7 register has the same gates. *)
Definition ex_glitch_in (n : nat) : l7_in := {| l7_reset := false; l7_m := 1%Z; l7_s := 1%Z |}.
Theorem C124_s7_true_readings_refuted :
  ~ (forall w i x n, (2 <= w)%Z -> byte_in i -> fl_b (fl_run w (fun k => l7_late (l7_run w i k)) x n) = 1%Z ->
     exists a d, (2 ^ (w - 1) - 1 <= error_sum (fun k => s7_error (prev_m i k) (l7_m (i k)) (l7_s (i k))) a d)%Z).
Proof.
  intros H. destruct (H 8%Z ex_glitch_in (fun _ => {| mri_src := true; mri_sys := true; mri_race := 127%Z |}) 2 ltac:(lia)) as (a & d & S); [intros k; cbn; lia|vm_compute; reflexivity|].
  change (2 ^ (8 - 1) - 1)%Z with 127%Z in S.
  assert (N : (error_sum (fun k => s7_error (prev_m ex_glitch_in k) (l7_m (ex_glitch_in k)) (l7_s (ex_glitch_in k))) a d <= 0)%Z); [|lia].
  apply sum_nonpos. intros k. unfold s7_error. cbn [l7_m l7_s ex_glitch_in]. destruct (_ =? _)%Z; [lia|]. cbn. lia.
Qed.
Print Assumptions C124_s7_true_readings_refuted.
(** There too a reading of one side means that the accumulator was not on the other side, at the second last edge [e] of sys. *)
Theorem C124_s7_reading_partial : forall w i x, (2 <= w)%Z -> byte_in i ->
  forall e n, e < n -> mri_sys (x e) = true -> occurrences (fun t => mri_sys (x t)) (S e) (n - S e) = 1 ->
  let r := fl_b (fl_run w (fun k => l7_late (l7_run w i k)) x n) in
  let l := l7_late (l7_run w i (occurrences (fun t => mri_src (x t)) 0 e)) in
  ((r = 0 \/ r = 1 \/ r = 2) /\ (r = 1 -> 2 ^ (w - 1) - 1 <= l) /\ (r = 2 -> l <= 2 ^ (w - 1)))%Z.
Proof.
  intros w i x W BY e n EN SE O r l. set (v k := l7_late (l7_run w i k)).
  pose proof (C59_s7_saturates w ltac:(lia) i BY) as SAT. fold v in SAT.
  assert (CNT : forall t, fl_k (fl_run w v x t) = occurrences (fun t => mri_src (x t)) 0 t).
  { induction t as [|t IH]; [reflexivity|]. change (fl_run w v x (S t)) with (fl_step w v (fl_run w v x t) (x t)). unfold fl_step; cbv zeta; cbn [fl_k occurrences Nat.add]. rewrite IH. destruct (mri_src (x t)); lia. }
  set (k := occurrences (fun t => mri_src (x t)) 0 e) in *. set (k' := if mri_src (x e) then S k else k). set (fl := dl_flags w (bit_race (mri_race (x e)) (v k) (v k'))).
  assert (A : forall d, occurrences (fun t => mri_sys (x t)) (S e) d = 0 -> fl_a (fl_run w v x (S e + d)) = fl).
  { induction d as [|d IH]; intros Z0.
    - rewrite Nat.add_0_r. change (fl_run w v x (S e)) with (fl_step w v (fl_run w v x e) (x e)). unfold fl_step; cbv zeta; cbn [fl_a]. rewrite SE, CNT. reflexivity.
    - cbn [occurrences] in Z0. rewrite Nat.add_succ_r. change (fl_run w v x (S (S e + d))) with (fl_step w v (fl_run w v x (S e + d)) (x (S e + d))).
      unfold fl_step; cbv zeta; cbn [fl_a]. destruct (mri_sys (x (S e + d))); [lia|]. apply IH. lia. }
  assert (B : forall d, occurrences (fun t => mri_sys (x t)) (S e) d = 1 -> fl_b (fl_run w v x (S e + d)) = fl).
  { induction d as [|d IH]; intros Z1; [discriminate|]. cbn [occurrences] in Z1. rewrite Nat.add_succ_r. change (fl_run w v x (S (S e + d))) with (fl_step w v (fl_run w v x (S e + d)) (x (S e + d))).
    unfold fl_step; cbv zeta; cbn [fl_b]. destruct (mri_sys (x (S e + d))); [apply A|apply IH]; lia. }
  assert (R : r = fl) by (unfold r; replace n with (S e + (n - S e)) by lia; apply B, O). rewrite R. change l with (v k). unfold fl.
  apply flags_race; [exact W|apply (sat_range _ _ _ _ SAT)|apply (sat_range _ _ _ _ SAT)|]. unfold k'. destruct (mri_src (x e)); [|left; lia].
  destruct (l7_reset (i k)) eqn:RS; [right; apply (sat_reset _ _ _ _ SAT k RS)|left].
  assert (E : (-1 <= s7_error (prev_m i k) (l7_m (i k)) (l7_s (i k)) <= 1)%Z) by (unfold s7_error; destruct (_ =? _)%Z; [lia|]; destruct (_ =? _)%Z; lia).
  destruct (sat_no_wrap _ _ _ _ SAT k RS) as [Q|Q]; cbv beta in Q; rewrite Q; lia.
Qed.
Print Assumptions C124_s7_reading_partial.

(** A three-bit accumulator, reset by software at instant 20, and a detector that always says "late" from then on: three votes saturate it. *)
Definition ex_votes (n : nat) : dl_in :=
  {| dl_sys := true; dl_pix := Nat.even n; dl_re := false; dl_r := 0%Z; dl_pre := n =? 20;
     dl_mbusy := false; dl_sbusy := false; dl_valid := true; dl_incdec := false; dl_race := 0%Z |}.
Example C124_case : dl_phase (s6 3 ex_votes 36) = 1%Z.
Proof.
  assert (RS : forall q, resets ex_votes q -> q = 20) by (intros q [_ Q]; apply Nat.eqb_eq, Q).
  pose proof (C124_reading_partial 3 ex_votes ltac:(lia) 20 26 ltac:(vm_compute; auto) ltac:(intros q Q N; apply RS in Q; contradiction) ltac:(lia) eq_refl ltac:(vm_compute; reflexivity)
    34 36 ltac:(lia) ltac:(lia) ltac:(intros q Q R; apply RS in R; lia) eq_refl ltac:(vm_compute; reflexivity)) as (_ & _ & _ & G & _).
  apply (G 33); [lia|vm_compute; reflexivity|]. intros j J. assert (C : j = 27 \/ j = 28 \/ j = 29 \/ j = 30 \/ j = 31 \/ j = 32) by lia.
  destruct C as [->|[->|[->|[->|[->| ->]]]]]; vm_compute; reflexivity.
Qed.
