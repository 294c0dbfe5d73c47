(** Lemmas for C120: the ycbcr422 output path when words are missing now and then. *)
From Coq Require Import ZArith List Bool Lia Arith.
From Verif Require Import Hdl Trace CdcProofs DelayModel DelayProps PipeModel PipeProofs CscModel CscSpec CscProofs ChromaProofs
  AnalysisModel YccPathModel YccPathProofs YccPathProps.
Import ListNotations.
Open Scope nat_scope.

Lemma nth_collect : forall (A : Type) (f : nat -> option A) d a n x m, f (a + n) = Some x -> n < m ->
  nth (length (collect f a n)) (collect f a m) d = x.
Proof.
  intros A f d a n x m H L. replace m with (n + S (m - n - 1)) by lia. rewrite collect_app, app_nth2 by lia. rewrite Nat.sub_diag.
  change (S (m - n - 1)) with (1 + (m - n - 1)). rewrite collect_app. cbn [collect]. rewrite Nat.add_0_r, H. reflexivity.
Qed.

(** Delivered pixels, when [c j] words have come in the first [j] clocks: one per clock while a complete pair is there. *)
Fixpoint delivered (c : nat -> nat) (j : nat) : nat :=
  match j with O => 0 | S k => delivered c k + (if delivered c k <? 2 * (c k / 2) then 1 else 0) end.

Section Delivered.
Variable c : nat -> nat.
Hypothesis c0 : c 0 = 0.
Hypothesis cS : forall j, c j <= c (S j) <= c j + 1.
Lemma dl_inv : forall j, let e := 2 * (c j / 2) in delivered c j <= e /\ e <= delivered c j + 2 /\ (e = delivered c j + 2 -> c j = e).
Proof.
  induction j as [|j IH]; cbv zeta in *; [rewrite c0; cbn; lia|]. cbn [delivered]. destruct IH as (A & B & C).
  pose proof (odd_half (c j)) as O1. pose proof (odd_half (c (S j))) as O2. pose proof (cS j) as S1.
  destruct (Nat.ltb_spec (delivered c j) (2 * (c j / 2))); destruct (Nat.odd (c j)); destruct (Nat.odd (c (S j))); lia.
Qed.
(** The second word of pair [k] is number [j]. *)
Lemma dl_pair : forall j k, c j = 2 * k + 1 -> c (S j) = 2 * k + 2 -> delivered c (S j) = 2 * k /\ delivered c (S (S j)) = 2 * k + 1.
Proof.
  intros j k A B. pose proof (dl_inv j) as (I1 & I2 & I3). pose proof (dl_inv (S j)) as (J1 & J2 & J3). cbv zeta in *.
  pose proof (odd_half (c j)) as O1. pose proof (odd_half (c (S j))) as O2. rewrite A in *. rewrite B in *.
  assert (H1 : (2 * k + 1) / 2 = k) by (destruct (Nat.odd (2 * k + 1)); lia).
  assert (H2 : (2 * k + 2) / 2 = k + 1) by (destruct (Nat.odd (2 * k + 2)); lia).
  rewrite H1 in *. rewrite H2 in *.
  assert (D : delivered c (S j) = 2 * k).
  { cbn [delivered] in *. rewrite A, H1 in *. destruct (Nat.ltb_spec (delivered c j) (2 * k)); lia. }
  split; [exact D|]. change (delivered c (S (S j))) with (delivered c (S j) + (if delivered c (S j) <? 2 * (c (S j) / 2) then 1 else 0)).
  rewrite D, B, H2. destruct (Nat.ltb_spec (2 * k) (2 * (k + 1))); lia.
Qed.
End Delivered.

Section Gaps.
Variable i : nat -> vy_in.
Variable t : nat.
Hypothesis Hrise : vy_rise i t = true.
Let st n := vy_run i n.
(** Words in the [j] clocks from [t] on. *)
Let word k := if vyi_valid (i k) then Some (vy_pair i k) else None.
Let c j := length (collect word t j).
Let got := occurrences (fun k => vyi_valid (i k)) t.

Lemma c_got : forall j, c j = got j.
Proof.
  intros j. unfold c, got. rewrite collect_length. apply occurrences_ext. intros k _. unfold word. destruct (vyi_valid (i k)); reflexivity.
Qed.
Lemma c_S : forall j, c j <= c (S j) <= c j + 1.
Proof. intros j. rewrite !c_got. unfold got. cbn [occurrences]. destruct (vyi_valid (i (t + j))); lia. Qed.

Lemma gp_us : forall j, (forall k, t < k <= t + j -> vy_rise i k = false) ->
  us_rel (collect word t j) (delivered c j) (vy_us (st (t + 1 + j))).
Proof.
  induction j as [|j IH]; intros Hno.
  - replace (t + 1 + 0) with (S t) by lia. unfold st. rewrite vy_S. cbn [vy_step vy_us]. rewrite vy_rise_at, Hrise. cbn [collect delivered].
    unfold us_rel. cbn. repeat split; apply Nat.le_0_l.
  - specialize (IH ltac:(intros; apply Hno; lia)). 
    assert (E : vy_us (st (t + 1 + S j)) = us_step (vy_us (st (t + 1 + j))) (vy_us_in (st (t + 1 + j)))).
    { replace (t + 1 + S j) with (S (t + 1 + j)) by lia. unfold st. rewrite vy_S. cbn [vy_step vy_us]. rewrite vy_rise_at, Hno by lia. reflexivity. }
    rewrite E. pose proof (us_rel_step (fun _ => vy_us_in (st 0)) _ _ _ (vy_us_in (st (t + 1 + j))) IH) as R'.
    pose proof (us_rel_ready _ _ _ IH) as RD. pose proof (us_rel_valid _ _ _ IH) as RV. unfold st in R'.
    rewrite vy_us_in_at in R'. fold (st (t + 1 + j)) in R'.
    pose proof (dl_inv c eq_refl c_S j) as (I1 & I2 & I3). cbv zeta in *. fold (c j) in RD, RV. 
    pose proof (odd_half (c j)) as OH.
    rewrite RD in R'. replace (c j - delivered c j <? 4) with true in R' by (symmetry; apply Nat.ltb_lt; destruct (Nat.odd (c j)); lia).
    rewrite andb_true_r in R'. cbn [collect delivered].
    unfold us_get in R'. rewrite RV in R'. change (usi_ready (vy_us_in (st (t + 1 + j)))) with true in R'. rewrite andb_true_r in R'.
    unfold word at 2. destruct (delivered c j <? 2 * (c j / 2)); destruct (vyi_valid (i (t + j))); exact R'.
Qed.

(** Words number [2k] and [2k+1] since [t] come in clocks [a] and [b]. *)
Variables (a b k : nat).
Hypothesis Ha : t <= a. Hypothesis Hab : a < b.
Hypothesis Va : vyi_valid (i a) = true. Hypothesis Vb : vyi_valid (i b) = true.
Hypothesis Ga : got (a - t) = 2 * k. Hypothesis Gb : got (b - t) = 2 * k + 1.
Hypothesis Hno : forall m, t < m <= b + 2 -> vy_rise i m = false.
Let pix (n : nat) : ycc := {| c_y := d_y (vy_pair i n); c_cb := d_c (vy_pair i a); c_cr := d_c (vy_pair i b) |}.

Lemma gp_source : us_source (vy_us (st (b + 2))) = pix a /\ us_source (vy_us (st (b + 3))) = pix b.
Proof.
  assert (GS : c (S (b - t)) = 2 * k + 2).
  { rewrite c_got. unfold got. cbn [occurrences]. fold got. rewrite Gb. replace (t + (b - t)) with b by lia. rewrite Vb. lia. }
  destruct (dl_pair c eq_refl c_S (b - t) k ltac:(rewrite c_got; exact Gb) GS) as [D1 D2].
  pose proof (odd_half (2 * k + 1)) as O1. pose proof (odd_half (2 * k)) as O0.
  assert (H1 : (2 * k + 1) / 2 = k) by (destruct (Nat.odd (2 * k + 1)); lia).
  assert (H0 : 2 * k / 2 = k) by (destruct (Nat.odd (2 * k)); lia).
  assert (WA : word (t + (a - t)) = Some (vy_pair i a)) by (unfold word; replace (t + (a - t)) with a by lia; rewrite Va; reflexivity).
  assert (WB : word (t + (b - t)) = Some (vy_pair i b)) by (unfold word; replace (t + (b - t)) with b by lia; rewrite Vb; reflexivity).
  assert (NA : forall d m, a - t < m -> nth (2 * k) (collect word t m) d = vy_pair i a).
  { intros d m L. rewrite <- Ga, <- c_got. unfold c. apply nth_collect; assumption. }
  assert (NB : forall d m, b - t < m -> nth (2 * k + 1) (collect word t m) d = vy_pair i b).
  { intros d m L. rewrite <- Gb, <- c_got. unfold c. apply nth_collect; assumption. }
  assert (HALF : forall j, S (b - t) <= j -> 2 * (k + 1) <= 2 * (c j / 2)).
  { intros j J. assert (M : c (S (b - t)) <= c j).
    { induction J as [|j J IH]; [lia|]. pose proof (c_S j). lia. }
    apply Nat.mul_le_mono_l. apply Nat.div_le_lower_bound; lia. }
  split.
  - pose proof (gp_us (S (b - t)) ltac:(intros; apply Hno; lia)) as R. replace (t + 1 + S (b - t)) with (b + 2) in R by lia.
    rewrite D1 in R.
    assert (V : us_source_valid (vy_us (st (b + 2))) = true).
    { rewrite (us_rel_valid _ _ _ R). fold (c (S (b - t))). pose proof (HALF (S (b - t)) ltac:(lia)). apply Nat.ltb_lt. lia. }
    rewrite (us_rel_source _ _ _ R V). unfold us_expected, us_y_of, us_c_of. rewrite H0. rewrite !NA, !NB by lia. reflexivity.
  - pose proof (gp_us (S (S (b - t))) ltac:(intros; apply Hno; lia)) as R. replace (t + 1 + S (S (b - t))) with (b + 3) in R by lia.
    rewrite D2 in R.
    assert (V : us_source_valid (vy_us (st (b + 3))) = true).
    { rewrite (us_rel_valid _ _ _ R). fold (c (S (S (b - t)))). pose proof (HALF (S (S (b - t))) ltac:(lia)). apply Nat.ltb_lt. lia. }
    rewrite (us_rel_source _ _ _ R V). unfold us_expected, us_y_of, us_c_of. rewrite H1. rewrite !NA, !NB by lia. reflexivity.
Qed.

Lemma gp_colours : 
  vy_colour (st (b + 6)) = spec_rgb 8 (pix a) /\ vy_colour (st (b + 7)) = spec_rgb 8 (pix b).
Proof.
  destruct gp_source as [S1 S2].
  assert (OK : forall n, ycc_ok 8 (pix n)) by (intros n; unfold ycc_ok, pix, vy_pair; cbn [c_y c_cb c_cr d_y d_c]; unfold slice; repeat split; apply Z.mod_pos_bound; lia).
  split.
  - replace (b + 6) with (b + 2 + 4) by lia. unfold st. rewrite vy_colour_at. fold (st (b + 2)). rewrite S1. apply yr_fun_spec; [lia|apply OK].
  - replace (b + 7) with (b + 3 + 4) by lia. unfold st. rewrite vy_colour_at. fold (st (b + 3)). rewrite S2. apply yr_fun_spec; [lia|apply OK].
Qed.
End Gaps.

(** The syncs come six clocks later, and the colours are always bytes. *)
Lemma vy_sync_at : forall i n, vy_sync (vy_run i (n + 6)) (i (n + 6)) = (vyi_de (i n), vyi_hs (i n), vyi_vs (i n)).
Proof.
  intros i n. unfold vy_sync. rewrite vy_td_at.
  apply (proj1 (C61_pure_delay _ 6 _ (fun k => (vyi_de (i k), vyi_hs (i k), vyi_vs (i k))) n)).
Qed.
Lemma vy_sync_early : forall i n, n < 6 -> vy_sync (vy_run i n) (i n) = (false, false, false).
Proof.
  intros i n N. unfold vy_sync. rewrite vy_td_at.
  apply (proj2 (C61_pure_delay _ 6 (false, false, false) (fun k => (vyi_de (i k), vyi_hs (i k), vyi_vs (i k))) n)). exact N.
Qed.
Lemma vy_colour_range : forall i n, let x := vy_colour (vy_run i n) in
  (0 <= c_r x < 256 /\ 0 <= c_g x < 256 /\ 0 <= c_b x < 256)%Z.
Proof.
  intros i n x. unfold x, vy_colour. rewrite vy_yr_at.
  destruct (pa_state_ready _ _ (yr_step 8) yr_init yr_latency (fun n => vy_yr_in (vy_run i n)) (fun _ => eq_refl) n) as [E _].
  rewrite E. destruct n as [|n]; [cbn; lia|]. rewrite seq_S, map_app, fold_left_app. cbn [map fold_left].
  set (s := fold_left _ _ _). clearbody s. cbn [yr_step yr_out c_r c_g c_b]. unfold saturate. change 256%Z with (2 ^ 8)%Z. repeat split; apply trunc_range; lia.
Qed.
