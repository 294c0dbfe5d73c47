(** The YCbCr 4:2:2 paths. *)
From Coq Require Import ZArith List Bool Lia Arith.
From Verif Require Import Hdl Trace DelayModel DelayProps PipeModel PipeProofs CscModel CscSpec CscProofs ChromaProofs AnalysisModel YccPathModel.
Import ListNotations.
Open Scope nat_scope.

(** A pipelined stage whose consumer is always ready has seen every sample. *)
Lemma pa_state_ready : forall St In dp (s0 : St) L (i : nat -> pa_in In), (forall m, pai_ready _ (i m) = true) ->
  forall n, pa_dp _ (pa_run St In dp s0 L i n) = fold_left dp (map (fun k => pai_data _ (i k)) (seq 0 n)) s0 /\
            pa_v _ (pa_run St In dp s0 L i n) = fold_left dly_step (map (fun k => pai_valid _ (i k)) (seq 0 n)) (repeat false L).
Proof.
  intros St In dp s0 L i R n.
  assert (SL : pa_slots St In dp s0 L i n = map (fun k => (pai_valid _ (i k), pai_data _ (i k))) (seq 0 n)).
  { induction n as [|n IH]; [reflexivity|]. rewrite pa_slots_S. unfold pa_ce at 1. rewrite R. cbn [orb].
    rewrite IH, seq_S, map_app. reflexivity. }
  destruct (pa_state St In dp s0 L i n) as [A B]. rewrite A, B, SL, !map_map. split; reflexivity.
Qed.

(** The last of [L] registers: the value [L] clocks ago. *)
Lemma dly_last : forall (v : nat -> bool) L n d, 0 < L ->
  last (fold_left dly_step (map v (seq 0 (n + L))) (repeat false L)) d = v n.
Proof.
  intros v L n d HL. rewrite dly_fold_last by exact HL. rewrite map_length, seq_length.
  replace (L <=? n + L) with true by (symmetry; apply Nat.leb_le; lia). cbn [andb].
  replace (n + L - L) with n by lia. apply nth_map_seq. lia.
Qed.

Section Capture.
Variable F : nat.
Variable i : nat -> fe_in.
Let st := fe_run F i.

Lemma fe_S : forall n, st (S n) = fe_step F (st n) (i n).
Proof. reflexivity. Qed.

Lemma fe_de_r_at : forall n, fe_de_r (st (S n)) = fi_de (i n).
Proof. reflexivity. Qed.

Definition fe_rise (n : nat) : bool := fi_de (i n) && negb (match n with 0 => false | S m => fi_de (i m) end).
Lemma fe_rise_at : forall n, fi_de (i n) && negb (fe_de_r (st n)) = fe_rise n.
Proof. intros [|n]; reflexivity. Qed.

Let ryi n := {| pai_valid := fi_valid (i n); pai_data := fi_px (i n); pai_ready := true |} : pa_in rgb.
Let dsi n := fe_ds_in (st n) (i n).

Lemma fe_ry_at : forall n, fe_ry (st n) = pa_run _ _ (ry_step 8) ry_init ry_latency ryi n.
Proof.
  induction n as [|n IH]; [reflexivity|]. rewrite fe_S. cbn [fe_step fe_ry]. rewrite IH. reflexivity.
Qed.
Lemma fe_ds_at : forall n, fe_ds (st n) = pa_run _ _ (ds_step 8) ds_init ds_latency dsi n.
Proof. induction n as [|n IH]; [reflexivity|]. rewrite fe_S. cbn [fe_step fe_ds]. rewrite IH. reflexivity. Qed.
Lemma fe_ded_at : forall n, fe_ded (st n) = fold_left dly_step (map (fun k => fi_de (i k)) (seq 0 n)) (repeat false 11).
Proof.
  induction n as [|n IH]; [reflexivity|]. rewrite fe_S. cbn [fe_step fe_ded].
  rewrite IH, seq_S, map_app, fold_left_app. reflexivity.
Qed.
Lemma fe_pk_at : forall n, fe_pk (st n) = pk_run F (fun m => fe_pk_in (st m) (i m)) n.
Proof. induction n as [|n IH]; [reflexivity|]. rewrite fe_S. cbn [fe_step fe_pk]. rewrite IH. reflexivity. Qed.

(** Output of the first converter. *)
Lemma fe_ry_out : forall n, ry_out (pa_dp _ (fe_ry (st (n + 8)))) = ry_fun 8 (fi_px (i n)).
Proof.
  intros n. rewrite fe_ry_at. destruct (pa_state_ready _ _ (ry_step 8) ry_init ry_latency ryi (fun _ => eq_refl) (n + 8)) as [E _].
  rewrite E, seq_app, map_app, fold_left_app. cbn [plus seq map]. apply ry_pure. reflexivity.
Qed.
Lemma fe_ry_range : forall n, (0 <= c_cb (ry_out (pa_dp _ (fe_ry (st n)))) < 2 ^ 8 /\ 0 <= c_cr (ry_out (pa_dp _ (fe_ry (st n)))) < 2 ^ 8)%Z.
Proof.
  intros n. rewrite fe_ry_at. destruct (pa_state_ready _ _ (ry_step 8) ry_init ry_latency ryi (fun _ => eq_refl) n) as [E _].
  rewrite E. destruct n as [|n]; [cbn; lia|]. rewrite seq_S, map_app, fold_left_app. cbn [map fold_left].
  set (s := fold_left _ _ _). clearbody s. cbn [ry_step ry_out c_cb c_cr]. unfold saturate. split; apply trunc_range; lia.
Qed.

(** A pixel reaches the packer exactly when there was one eleven clocks before. *)
Lemma fe_we_at : forall n, pki_we (fe_pk_in (st (n + 11)) (i (n + 11))) = fi_valid (i n) && fi_de (i n).
Proof.
  intros n. cbn [fe_pk_in pki_we]. f_equal.
  - unfold pa_source_valid, dly_out. rewrite fe_ds_at.
    destruct (pa_state_ready _ _ (ds_step 8) ds_init ds_latency dsi (fun _ => eq_refl) (n + 11)) as [_ E]. rewrite E.
    replace (n + 11) with (n + 8 + ds_latency) by (unfold ds_latency; lia). rewrite dly_last by (unfold ds_latency; lia).
    cbn [dsi fe_ds_in pai_valid]. unfold dly_out. rewrite fe_ry_at.
    destruct (pa_state_ready _ _ (ry_step 8) ry_init ry_latency ryi (fun _ => eq_refl) (n + 8)) as [_ E2]. rewrite E2.
    change 8 with ry_latency. rewrite dly_last by (unfold ry_latency; lia). reflexivity.
  - unfold dly_out. rewrite fe_ded_at. rewrite dly_last by lia. reflexivity.
Qed.

Lemma fe_we_early : forall n, n < 11 -> pki_we (fe_pk_in (st n) (i n)) = false.
Proof.
  intros n Hn. cbn [fe_pk_in pki_we]. unfold dly_out at 1. rewrite fe_ded_at, dly_fold_last by lia.
  rewrite map_length, seq_length. replace (11 <=? n) with false by (symmetry; apply Nat.leb_gt; lia). apply andb_false_r.
Qed.

(** Pixel data. *)
Variables (t len : nat).
Hypothesis Hrise : fe_rise t = true.
Hypothesis Hno : forall k, t < k < t + len + 9 -> fe_rise k = false.

Let q n := ry_fun 8 (fi_px (i (t + n))).

Lemma fe_px_at : forall h, 2 * h + 1 < len ->
  ds_out (pa_dp _ (fe_ds (st (t + 2 * h + 11)))) =
    {| d_y := c_y (q (2 * h)); d_c := mean2 (c_cb (q (2 * h))) (c_cb (q (2 * h + 1))) |} /\
  ds_out (pa_dp _ (fe_ds (st (t + (2 * h + 1) + 11)))) =
    {| d_y := c_y (q (2 * h + 1)); d_c := mean2 (c_cr (q (2 * h))) (c_cr (q (2 * h + 1))) |}.
Proof.
  intros h Hh.
  set (x := fun k => pai_data _ (dsi k)).
  assert (Hf : dsi_first (x t) = true) by (unfold x, dsi; cbn [fe_ds_in pai_data dsi_first]; rewrite fe_rise_at; exact Hrise).
  assert (Hl : forall k, t < k < t + (len + 9) -> dsi_first (x k) = false)
    by (intros k Hk; unfold x, dsi; cbn [fe_ds_in pai_data dsi_first]; rewrite fe_rise_at; apply Hno; lia).
  assert (Hr : forall k, (0 <= c_cb (dsi_pix (x k)) < 2 ^ 8 /\ 0 <= c_cr (dsi_pix (x k)) < 2 ^ 8)%Z)
    by (intros k; apply fe_ry_range).
  assert (Q : forall j, dsi_pix (x (t + 8 + j)) = q j).
  { intros j. unfold x, dsi, q. cbn [fe_ds_in pai_data dsi_pix]. rewrite <- fe_ry_out. do 4 f_equal. lia. }
  assert (ST : forall n, pa_dp _ (fe_ds (st n)) = fold_left (ds_step 8) (map x (seq 0 n)) ds_init).
  { intros n. rewrite fe_ds_at. apply (pa_state_ready _ _ (ds_step 8) ds_init ds_latency dsi (fun _ => eq_refl) n). }
  rewrite !ST. split.
  - pose proof (ds_out_even 8 x t ltac:(lia) Hf (len + 9) (fun k K _ => Hl k K) Hr (h + 4) ltac:(lia)) as E. cbv beta in E.
    replace (t + 2 * (h + 4) + 3) with (t + 2 * h + 11) in E by lia. rewrite E.
    replace (t + 2 * (h + 4)) with (t + 8 + 2 * h) by lia. replace (t + 8 + 2 * h + 1) with (t + 8 + (2 * h + 1)) by lia.
    rewrite !Q. reflexivity.
  - pose proof (ds_out_odd 8 x t ltac:(lia) Hf (len + 9) (fun k K _ => Hl k K) Hr (h + 4) ltac:(lia)) as E. cbv beta in E.
    replace (t + 2 * (h + 4) + 4) with (t + (2 * h + 1) + 11) in E by lia. rewrite E.
    replace (t + 2 * (h + 4)) with (t + 8 + 2 * h) by lia. replace (t + 8 + 2 * h + 1) with (t + 8 + (2 * h + 1)) by lia.
    rewrite !Q. reflexivity.
Qed.
End Capture.

Section Output.
Variable i : nat -> vy_in.
Let st := vy_run i.

Lemma vy_S : forall n, st (S n) = vy_step (st n) (i n).
Proof. reflexivity. Qed.

Definition vy_rise (n : nat) : bool := vyi_de (i n) && negb (match n with 0 => false | S m => vyi_de (i m) end).
Lemma vy_rise_at : forall n, vyi_de (i n) && negb (vy_de_r (st n)) = vy_rise n.
Proof. intros [|n]; reflexivity. Qed.

Let yri n := vy_yr_in (st n).

Lemma vy_yr_at : forall n, vy_yr (st n) = pa_run _ _ (yr_step 8) yr_init yr_latency yri n.
Proof. induction n as [|n IH]; [reflexivity|]. rewrite vy_S. cbn [vy_step vy_yr]. rewrite IH. reflexivity. Qed.

Lemma vy_colour_at : forall n, vy_colour (st (n + 4)) = yr_fun 8 (us_source (vy_us (st n))).
Proof.
  intros n. unfold vy_colour. rewrite vy_yr_at.
  destruct (pa_state_ready _ _ (yr_step 8) yr_init yr_latency yri (fun _ => eq_refl) (n + 4)) as [E _].
  rewrite E, seq_app, map_app, fold_left_app. cbn [plus seq map]. apply yr_pure. reflexivity.
Qed.

Lemma vy_td_at : forall n, vy_td (st n) = dly_run 6 (false, false, false) (fun k => (vyi_de (i k), vyi_hs (i k), vyi_vs (i k))) n.
Proof. induction n as [|n IH]; [reflexivity|]. rewrite vy_S. cbn [vy_step vy_td]. rewrite IH. reflexivity. Qed.

Variables (t len : nat).
Hypothesis Hrise : vy_rise t = true.
Hypothesis Hno : forall k, t < k < t + len + 2 -> vy_rise k = false.
Hypothesis Hval : forall k, t <= k < t + len -> vyi_valid (i k) = true.

Definition vy_pair (n : nat) : yc2 :=
  {| d_y := slice 0 8 (vyi_data (i n)); d_c := slice 8 8 (vyi_data (i n)) |}.
Let src j := vy_pair (t + j).

Lemma vy_us_in_at : forall j, us_put (vy_us (st (t + 1 + j))) (vy_us_in (st (t + 1 + j))) =
  if vyi_valid (i (t + j)) && us_sink_ready (vy_us (st (t + 1 + j))) then Some (src j) else None.
Proof.
  intros j. replace (t + 1 + j) with (S (t + j)) by lia. unfold us_put.
  change (usi_valid (vy_us_in (st (S (t + j))))) with (vyi_valid (i (t + j))).
  destruct (_ && _); [|reflexivity]. f_equal.
  unfold vy_us_in. cbn [usi_pix]. change (vy_dd (st (S (t + j)))) with (slice 0 16 (vyi_data (i (t + j)))).
  unfold src, vy_pair, slice. rewrite !Z.pow_0_r, !Z.div_1_r. f_equal.
  - change (2 ^ 16)%Z with (2 ^ 8 * 2 ^ 8)%Z. rewrite Z.rem_mul_r by lia. rewrite Z.mul_comm, Z.mod_add by lia. apply Z.mod_mod. lia.
  - change (2 ^ 16)%Z with (2 ^ 8 * 2 ^ 8)%Z. rewrite Z.rem_mul_r by lia.
    rewrite (Z.mul_comm (2 ^ 8)%Z (_ mod _)%Z), Z.div_add by lia.
    rewrite (Z.div_small (_ mod _)) by (apply Z.mod_pos_bound; lia). rewrite Z.add_0_l. apply Z.mod_mod. lia.
Qed.

(** State of the upsampler in the line: everything taken, all but two pixels delivered. *)
Lemma vy_us_at : forall j, j <= len + 1 -> exists junk,
  us_rel (map src (seq 0 (Nat.min j len)) ++ junk) (j - 2) (vy_us (st (t + 1 + j))) /\ (j <= len -> junk = []).
Proof.
  induction j as [|j IH]; intros Hj.
  - exists []. split; [|reflexivity]. replace (t + 1 + 0) with (S t) by lia. rewrite vy_S. cbn [vy_step vy_us].
    rewrite vy_rise_at, Hrise. cbn [Nat.min seq map app]. unfold us_rel. cbn. repeat split; apply Nat.le_0_l.
  - destruct (IH ltac:(lia)) as (junk & R & J).
    assert (E : vy_us (st (t + 1 + S j)) = us_step (vy_us (st (t + 1 + j))) (vy_us_in (st (t + 1 + j)))).
    { replace (t + 1 + S j) with (S (t + 1 + j)) by lia. rewrite vy_S. cbn [vy_step vy_us].
      rewrite vy_rise_at, Hno by lia. reflexivity. }
    rewrite E. pose proof (us_rel_step (fun _ => vy_us_in (st 0)) _ _ _ (vy_us_in (st (t + 1 + j))) R) as R'.
    pose proof (us_rel_ready _ _ _ R) as RD. pose proof (us_rel_valid _ _ _ R) as RV.
    rewrite vy_us_in_at in R'.
    set (l := map src (seq 0 (Nat.min j len)) ++ junk) in *.
    assert (LL : j <= len -> length l = j).
    { intros H. unfold l. rewrite J by exact H. rewrite app_nil_r, map_length, seq_length. lia. }
    specialize (LL ltac:(lia)). pose proof (odd_half (length l)) as OH.
    assert (G : (j - 2 + match us_get (vy_us (st (t + 1 + j))) (vy_us_in (st (t + 1 + j))) with Some _ => 1 | None => 0 end) = S j - 2).
    { unfold us_get. rewrite RV. change (usi_ready (vy_us_in (st (t + 1 + j)))) with true. rewrite andb_true_r.
      destruct (Nat.ltb_spec (j - 2) (2 * (length l / 2))) as [H | H]; [|destruct (Nat.odd (length l)); lia].
      destruct (Nat.le_gt_cases 2 j); [lia|]. destruct j as [|[|j]]; [|cbn in *|]; try lia.
      + rewrite LL in H. cbn in H. lia.
      + rewrite LL in H. cbn in H. lia. }
    rewrite G in R'. rewrite RD in R'.
    replace (length l - (j - 2) <? 4) with true in R' by (symmetry; apply Nat.ltb_lt; lia). rewrite andb_true_r in R'.
    destruct (Nat.lt_ge_cases j len) as [H | H].
    + rewrite Hval in R' by lia. exists []. split; [|reflexivity]. rewrite app_nil_r.
      replace (Nat.min (S j) len) with (S j) by lia. rewrite seq_S, map_app. cbn [map plus].
      unfold l in R'. rewrite J, app_nil_r in R' by lia. replace (Nat.min j len) with j in R' by lia. exact R'.
    + exists (junk ++ (if vyi_valid (i (t + j)) then [src j] else [])). split; [|lia].
      replace (Nat.min (S j) len) with (Nat.min j len) by lia. rewrite app_assoc. fold l.
      destruct (vyi_valid (i (t + j))); exact R'.
Qed.

Lemma vy_us_source : Nat.even len = true -> forall n, n < len ->
  us_source_valid (vy_us (st (t + 3 + n))) = true /\
  us_source (vy_us (st (t + 3 + n))) =
    {| c_y := d_y (src n); c_cb := d_c (src (2 * (n / 2))); c_cr := d_c (src (2 * (n / 2) + 1)) |}.
Proof.
  intros Hev n Hn. destruct (vy_us_at (n + 2)) as (junk & R & _).
  { destruct (Nat.eq_dec n len); lia. }
  replace (t + 1 + (n + 2)) with (t + 3 + n) in R by lia. replace (n + 2 - 2) with n in R by lia.
  set (l := map src (seq 0 (Nat.min (n + 2) len)) ++ junk) in *.
  pose proof (odd_half len) as OL. rewrite <- Nat.negb_even, Hev in OL. cbn [negb] in OL.
  pose proof (odd_half n) as ON.
  assert (L2 : 2 * (n / 2) + 2 <= Nat.min (n + 2) len).
  { destruct (Nat.odd n); [|lia]. lia. }
  assert (NT : forall k, k < Nat.min (n + 2) len -> nth k l {| d_y := 0; d_c := 0 |}%Z = src k).
  { intros k Hk. unfold l. rewrite app_nth1 by (rewrite map_length, seq_length; exact Hk). apply nth_map_seq. exact Hk. }
  assert (LL : Nat.min (n + 2) len <= length l) by (unfold l; rewrite app_length, map_length, seq_length; lia).
  assert (V : us_source_valid (vy_us (st (t + 3 + n))) = true).
  { rewrite (us_rel_valid _ _ _ R). apply Nat.ltb_lt.
    assert (n / 2 < length l / 2). { apply Nat.div_le_lower_bound; lia. }
    destruct (Nat.odd n); lia. }
  split; [exact V|]. rewrite (us_rel_source _ _ _ R V). unfold us_expected, us_y_of, us_c_of.
  rewrite !NT by (destruct (Nat.odd n); lia). reflexivity.
Qed.
End Output.
