(** Chroma down- and upsampling. *)
From Coq Require Import ZArith List Bool Lia Arith.
From Verif Require Import Hdl Trace PipeModel PipeProofs CscModel.
Import ListNotations.
Open Scope nat_scope.

(** * Downsampling: state after the slots [xs] when [first] was set at slot [k0]. *)
Section Down.
Variables (w : Z) (x : nat -> ds_in) (k0 : nat).
Hypothesis Hw : (0 <= w)%Z.
Hypothesis Hfirst : dsi_first (x k0) = true.
Variable m : nat.
Hypothesis Hlater : forall k, k0 < k < k0 + m -> Nat.odd (k - k0) = true -> dsi_first (x k) = false.

Let st k := fold_left (ds_step w) (map x (seq 0 k)) ds_init.

Lemma ds_S : forall k, st (S k) = ds_step w (st k) (x k).
Proof. intros k. unfold st. rewrite seq_S, map_app, fold_left_app. reflexivity. Qed.

Lemma ds_par_at : forall j, j < m -> ds_par (st (S (k0 + j))) = Nat.even j.
Proof.
  induction j as [|j IH]; intros H.
  - rewrite Nat.add_0_r, ds_S. cbn [ds_step ds_par]. rewrite Hfirst. reflexivity.
  - rewrite Nat.add_succ_r, ds_S. cbn [ds_step ds_par]. rewrite IH by lia.
    rewrite Nat.even_succ, <- Nat.negb_even. destruct (Nat.even j) eqn:Ev; [|rewrite orb_true_r; reflexivity].
    rewrite Hlater; [reflexivity|lia|]. replace (S (k0 + j) - k0) with (S j) by lia. rewrite Nat.odd_succ. exact Ev.
Qed.
Lemma ds_par_even : forall h, 2 * h <= m -> ds_par (st (S (k0 + 2 * h))) = true.
Proof.
  intros h H. destruct h as [|h].
  - rewrite Nat.add_0_r, ds_S. cbn [ds_step ds_par]. rewrite Hfirst. reflexivity.
  - replace (k0 + 2 * S h) with (S (k0 + (2 * h + 1))) by lia. rewrite ds_S. cbn [ds_step ds_par]. rewrite ds_par_at by lia.
    replace (2 * h + 1) with (S (2 * h)) by lia. rewrite Nat.even_succ, <- Nat.negb_even, Nat.even_mul. apply orb_true_r.
Qed.

Lemma ds_d1_at : forall k, ds_d1 (st (S k)) = dsi_pix (x k).
Proof. intros k. rewrite ds_S. reflexivity. Qed.
Lemma ds_d2_at : forall k, ds_d2 (st (S (S k))) = dsi_pix (x k).
Proof. intros k. rewrite ds_S. cbn [ds_step ds_d2]. apply ds_d1_at. Qed.

Definition mean2 (a b : Z) : Z := ((a + b) / 2)%Z.

Lemma slice_mean : forall a b, (0 <= a < 2 ^ w -> 0 <= b < 2 ^ w -> slice 1 w (trunc (w + 1) (b + a)) = mean2 a b)%Z.
Proof.
  intros a b Ha Hb. assert (E : (2 ^ (w + 1) = 2 * 2 ^ w)%Z) by (rewrite Z.pow_add_r by lia; change (2 ^ 1)%Z with 2%Z; lia).
  rewrite trunc_id by lia. unfold slice, mean2. change (2 ^ 1)%Z with 2%Z. rewrite (Z.add_comm b a). apply Z.mod_small.
  split; [apply Z.div_pos; lia|apply Z.div_lt_upper_bound; lia].
Qed.

Hypothesis Hrange : forall k, (0 <= c_cb (dsi_pix (x k)) < 2 ^ w /\ 0 <= c_cr (dsi_pix (x k)) < 2 ^ w)%Z.

(** Sums captured for the pair starting at the even offset [2*h]. *)
Lemma ds_sums : forall h, 2 * h < m ->
  ds_cbs (st (k0 + 2 * h + 2)) = trunc (w + 1) (c_cb (dsi_pix (x (k0 + 2 * h + 1))) + c_cb (dsi_pix (x (k0 + 2 * h)))) /\
  ds_crs (st (k0 + 2 * h + 2)) = trunc (w + 1) (c_cr (dsi_pix (x (k0 + 2 * h + 1))) + c_cr (dsi_pix (x (k0 + 2 * h)))).
Proof.
  intros h H. replace (k0 + 2 * h + 2) with (S (S (k0 + 2 * h))) by lia. rewrite ds_S. cbn [ds_step ds_cbs ds_crs].
  rewrite ds_par_at by lia. rewrite Nat.even_mul. cbn [Nat.even orb]. rewrite !ds_d1_at.
  replace (S (k0 + 2 * h)) with (k0 + 2 * h + 1) by lia. split; reflexivity.
Qed.

(** Output for offset [j], seen after slot [k0 + j + 2]. *)
Lemma ds_out_even : forall h, 2 * h + 1 < m ->
  ds_out (st (k0 + 2 * h + 3)) =
    {| d_y := c_y (dsi_pix (x (k0 + 2 * h)));
       d_c := mean2 (c_cb (dsi_pix (x (k0 + 2 * h)))) (c_cb (dsi_pix (x (k0 + 2 * h + 1)))) |}.
Proof.
  intros h H. destruct (ds_sums h ltac:(lia)) as [Sb Sr].
  replace (k0 + 2 * h + 3) with (S (k0 + 2 * h + 2)) by lia. rewrite ds_S. cbn [ds_step ds_out].
  replace (k0 + 2 * h + 2) with (S (S (k0 + 2 * h))) in * by lia. rewrite ds_d2_at.
  replace (S (S (k0 + 2 * h))) with (S (k0 + (2 * h + 1))) at 1 by lia. rewrite ds_par_at by lia.
  replace (Nat.even (2 * h + 1)) with false
    by (replace (2 * h + 1) with (S (2 * h)) by lia; rewrite Nat.even_succ, <- Nat.negb_even, Nat.even_mul; reflexivity).
  rewrite Sb. destruct (Hrange (k0 + 2 * h)), (Hrange (k0 + 2 * h + 1)). rewrite slice_mean by assumption. reflexivity.
Qed.

Lemma ds_out_odd : forall h, 2 * h + 1 < m ->
  ds_out (st (k0 + 2 * h + 4)) =
    {| d_y := c_y (dsi_pix (x (k0 + 2 * h + 1)));
       d_c := mean2 (c_cr (dsi_pix (x (k0 + 2 * h)))) (c_cr (dsi_pix (x (k0 + 2 * h + 1)))) |}.
Proof.
  intros h H. destruct (ds_sums h ltac:(lia)) as [Sb Sr].
  replace (k0 + 2 * h + 4) with (S (k0 + 2 * h + 3)) by lia. rewrite ds_S. cbn [ds_step ds_out].
  replace (k0 + 2 * h + 3) with (S (S (k0 + 2 * h + 1))) at 1 by lia. rewrite ds_d2_at.
  replace (k0 + 2 * h + 3) with (S (k0 + 2 * (h + 1))) at 1 by lia. rewrite ds_par_even by lia.
  replace (k0 + 2 * h + 3) with (S (k0 + 2 * h + 2)) by lia. rewrite ds_S. cbn [ds_step ds_crs].
  replace (k0 + 2 * h + 2) with (S (k0 + (2 * h + 1))) at 1 by lia. rewrite ds_par_at by lia.
  replace (Nat.even (2 * h + 1)) with false
    by (replace (2 * h + 1) with (S (2 * h)) by lia; rewrite Nat.even_succ, <- Nat.negb_even, Nat.even_mul; reflexivity).
  rewrite Sr. destruct (Hrange (k0 + 2 * h)), (Hrange (k0 + 2 * h + 1)). rewrite slice_mean by assumption. reflexivity.
Qed.
End Down.

(** * Upsampling *)
Section Up.
Variable i : nat -> us_in.
Let st := us_run i.

Definition us_put (s : us_st) (x : us_in) : option yc2 :=
  if usi_valid x && us_sink_ready s then Some (usi_pix x) else None.
Definition us_get (s : us_st) (x : us_in) : option ycc :=
  if us_source_valid s && usi_ready x then Some (us_source s) else None.

Definition us_ins n := collect (fun m => us_put (us_run i m) (i m)) 0 n.
Definition us_outs n := collect (fun m => us_get (us_run i m) (i m)) 0 n.

Let z := {| d_y := 0; d_c := 0 |}%Z.

Definition us_y_of (l : list yc2) (k : nat) : Z := d_y (nth k l z).
Definition us_c_of (l : list yc2) (k : nat) : Z := d_c (nth k l z).

(** FIFO contents as a function of what went in and how many came out. *)
Definition us_rel (l : list yc2) (o : nat) (s : us_st) : Prop :=
  o <= length l /\
  us_y s = map (us_y_of l) (seq o (length l - o)) /\
  us_cb s = map (fun k => us_c_of l (2 * k)) (seq (o / 2) ((length l + 1) / 2 - o / 2)) /\
  us_cr s = map (fun k => us_c_of l (2 * k + 1)) (seq (o / 2) (length l / 2 - o / 2)) /\
  us_pin s = Nat.odd (length l) /\ us_pout s = Nat.odd o /\
  length (us_y s) <= 4.

Definition us_expected (l : list yc2) (k : nat) : ycc :=
  {| c_y := us_y_of l k; c_cb := us_c_of l (2 * (k / 2)); c_cr := us_c_of l (2 * (k / 2) + 1) |}.

Lemma odd_half : forall n, if Nat.odd n then n = 2 * (n / 2) + 1 else n = 2 * (n / 2).
Proof.
  intros n. pose proof (Nat.div2_odd n) as H. rewrite Nat.div2_div in H. destruct (Nat.odd n); cbn [Nat.b2n] in H; lia.
Qed.

Lemma half_succ : forall n, (n + 1) / 2 = n / 2 + (if Nat.odd n then 1 else 0).
Proof.
  intros n. pose proof (odd_half n) as H. pose proof (odd_half (n + 1)) as H1.
  rewrite Nat.odd_add in H1. change (Nat.odd 1) with true in H1.
  destruct (Nat.odd n); cbn [xorb] in H1; lia.
Qed.

Lemma map_seq_ext : forall (A : Type) (f g : nat -> A) a n, (forall k, a <= k < a + n -> f k = g k) ->
  map f (seq a n) = map g (seq a n).
Proof. intros. apply map_ext_in. intros k Hk. apply in_seq in Hk. apply H. lia. Qed.

Lemma nth_app_old : forall (l : list yc2) x k, k < length l -> nth k (l ++ [x]) z = nth k l z.
Proof. intros. apply app_nth1. exact H. Qed.

Lemma us_rel_valid : forall l o s, us_rel l o s ->
  us_source_valid s = (o <? 2 * (length l / 2)).
Proof.
  intros l o s (Ho & Ey & Eb & Er & _ & _ & _). unfold us_source_valid. rewrite Ey, Eb, Er.
  assert (N : forall (f : nat -> Z) a n, nonempty (map f (seq a n)) = (0 <? n)) by (intros f a n; destruct n; reflexivity).
  rewrite !N. pose proof (odd_half (length l)) as Hl. pose proof (odd_half o) as H0.
  pose proof (half_succ (length l)) as Hl1.
  destruct (Nat.odd (length l)), (Nat.odd o);
  repeat match goal with |- context [?a <? ?b] => destruct (Nat.ltb_spec a b) end; cbn [andb]; lia || reflexivity.
Qed.

Lemma us_rel_source : forall l o s, us_rel l o s -> us_source_valid s = true -> us_source s = us_expected l o.
Proof.
  intros l o s R V. pose proof (us_rel_valid l o s R) as E. rewrite V in E. symmetry in E. apply Nat.ltb_lt in E.
  destruct R as (Ho & Ey & Eb & Er & _ & _ & _). unfold us_source, us_expected. rewrite Ey, Eb, Er.
  pose proof (odd_half (length l)) as Hl. pose proof (odd_half o) as H0. pose proof (half_succ (length l)) as Hl1.
  assert (A1 : exists n, length l - o = S n) by (exists (length l - o - 1); destruct (Nat.odd (length l)); lia).
  assert (A2 : exists n, (length l + 1) / 2 - o / 2 = S n).
  { exists ((length l + 1) / 2 - o / 2 - 1). destruct (Nat.odd (length l)), (Nat.odd o); lia. }
  assert (A3 : exists n, length l / 2 - o / 2 = S n).
  { exists (length l / 2 - o / 2 - 1). destruct (Nat.odd (length l)), (Nat.odd o); lia. }
  destruct A1 as [n1 ->], A2 as [n2 ->], A3 as [n3 ->]. reflexivity.
Qed.

(** The chroma FIFOs never fill. *)
Lemma us_rel_ready : forall l o s, us_rel l o s -> us_sink_ready s = (length l - o <? 4).
Proof.
  intros l o s (Ho & Ey & Eb & Er & Ei & Eo & L4). unfold us_sink_ready. rewrite Ey in *. rewrite map_length, seq_length in *.
  rewrite Eb, Er, !map_length, !seq_length.
  pose proof (odd_half (length l)) as Hl. pose proof (odd_half o) as H0. pose proof (half_succ (length l)) as Hl1.
  rewrite Ei. destruct (Nat.odd (length l)), (Nat.odd o);
  repeat match goal with |- context [?a <? ?b] => destruct (Nat.ltb_spec a b) end; cbn [andb]; lia || reflexivity.
Qed.

Lemma us_rel_step : forall l o s x, us_rel l o s ->
  us_rel (l ++ match us_put s x with Some p => [p] | None => [] end)
         (o + match us_get s x with Some _ => 1 | None => 0 end) (us_step s x).
Proof.
  intros l o s x R. pose proof (us_rel_valid l o s R) as EV. pose proof (us_rel_ready l o s R) as ER.
  destruct R as (Ho & Ey & Eb & Er & Ei & Eo & L4).
  rewrite Ey, map_length, seq_length in L4.
  pose proof (odd_half (length l)) as Hl. pose proof (odd_half o) as H0. pose proof (half_succ (length l)) as Hl1.
  pose proof (half_succ (length l + 1)) as Hl2. rewrite Nat.odd_add in Hl2. change (Nat.odd 1) with true in Hl2.
  pose proof (half_succ o) as H01.
  unfold us_put, us_get, us_step. rewrite EV, ER.
  set (put := usi_valid x && (length l - o <? 4)). set (get := (o <? 2 * (length l / 2)) && usi_ready x).
  assert (PUT : put = true -> length l - o < 4).
  { unfold put. intros H. apply andb_true_iff in H as [_ H]. apply Nat.ltb_lt in H. exact H. }
  assert (GET : get = true -> o < 2 * (length l / 2)).
  { unfold get. intros H. apply andb_true_iff in H as [H _]. apply Nat.ltb_lt in H. exact H. }
  clearbody put get. unfold us_rel. cbn [us_y us_cb us_cr us_pin us_pout].
  (* the dequeue part *)
  set (o' := o + (if get then 1 else 0)).
  assert (EO : o + match (if get then Some (us_source s) else None) with Some _ => 1 | None => 0 end = o') by (unfold o'; destruct get; reflexivity).
  rewrite EO.
  assert (HO' : o' <= length l) by (unfold o'; destruct get; [specialize (GET eq_refl); destruct (Nat.odd (length l))|]; lia).
  assert (HALF : o' / 2 = o / 2 + (if get && us_pout s then 1 else 0)).
  { unfold o'. rewrite Eo. destruct get; cbn [andb]; [|rewrite !Nat.add_0_r; reflexivity].
    destruct (Nat.odd o); lia. }
  assert (DQ : forall (b : bool) (f : nat -> Z) a n, (b = true -> 0 < n) ->
     (if b then tl (map f (seq a n)) else map f (seq a n)) = map f (seq (a + (if b then 1 else 0)) (n - (if b then 1 else 0)))).
  { intros b f a n Hn. destruct b.
    - destruct n; [specialize (Hn eq_refl); lia|]. cbn [seq map tl]. f_equal. f_equal; lia.
    - rewrite Nat.add_0_r, Nat.sub_0_r. reflexivity. }
  rewrite Ey, Eb, Er, !DQ.
  2:{ destruct get; [specialize (GET eq_refl)|discriminate]. rewrite Eo. destruct (Nat.odd (length l)), (Nat.odd o); cbn [andb]; lia || discriminate. }
  2:{ destruct get; [specialize (GET eq_refl)|discriminate]. rewrite Eo. destruct (Nat.odd (length l)), (Nat.odd o); cbn [andb]; lia || discriminate. }
  2:{ destruct get; [specialize (GET eq_refl)|discriminate]. destruct (Nat.odd (length l)); lia. }
  rewrite <- HALF. fold o'.
  replace (length l - o - (if get then 1 else 0)) with (length l - o') by (unfold o'; lia).
  replace ((length l + 1) / 2 - o / 2 - (if get && us_pout s then 1 else 0)) with ((length l + 1) / 2 - o' / 2) by (rewrite HALF; lia).
  replace (length l / 2 - o / 2 - (if get && us_pout s then 1 else 0)) with (length l / 2 - o' / 2) by (rewrite HALF; lia).
  assert (EP : (if get then negb (us_pout s) else us_pout s) = Nat.odd o').
  { unfold o'. rewrite Eo. destruct get; [rewrite Nat.odd_add; cbn; destruct (Nat.odd o); reflexivity|rewrite Nat.add_0_r; reflexivity]. }
  rewrite EP.
  assert (HO2 : o' / 2 <= length l / 2) by (apply Nat.div_le_mono; lia).
  assert (HM : length l / 2 <= (length l + 1) / 2) by (apply Nat.div_le_mono; lia).
  assert (O4 : length l - o' <= 4) by (unfold o'; lia).
  assert (PUT' : put = true -> length l - o' < 4) by (intros H; specialize (PUT H); unfold o'; lia).
  clearbody o'. clear EO DQ GET HALF EP EV ER Ey Eb Er H0 H01.
  destruct put; cbn [andb].
  2:{ rewrite !app_nil_r. rewrite map_length, seq_length. tauto. }
  specialize (PUT' eq_refl). rewrite !app_length. cbn [length].
  assert (OLD : forall k, k < length l -> us_y_of (l ++ [usi_pix x]) k = us_y_of l k /\ us_c_of (l ++ [usi_pix x]) k = us_c_of l k).
  { intros k Hk. unfold us_y_of, us_c_of. rewrite nth_app_old by exact Hk. split; reflexivity. }
  assert (NEW : nth (length l) (l ++ [usi_pix x]) z = usi_pix x).
  { rewrite app_nth2, Nat.sub_diag by lia. reflexivity. }
  rewrite Ei.
  split; [lia|]. split; [|split; [|split; [|split; [|split]]]].
  - replace (length l + 1 - o') with (length l - o' + 1) by lia. rewrite seq_app, map_app. f_equal.
    + apply map_seq_ext. intros k Hk. symmetry. apply OLD. lia.
    + replace (o' + (length l - o')) with (length l) by lia. cbn [seq map]. unfold us_y_of. rewrite NEW. reflexivity.
  - destruct (Nat.odd (length l)) eqn:OD; cbn [negb andb xorb] in *.
    + rewrite app_nil_r. replace ((length l + 1 + 1) / 2) with ((length l + 1) / 2) by lia.
      apply map_seq_ext. intros k Hk. symmetry. apply OLD. lia.
    + replace ((length l + 1 + 1) / 2 - o' / 2) with ((length l + 1) / 2 - o' / 2 + 1) by lia.
      rewrite seq_app, map_app. f_equal.
      * apply map_seq_ext. intros k Hk. symmetry. apply OLD. lia.
      * cbn [seq map]. replace (o' / 2 + ((length l + 1) / 2 - o' / 2)) with (length l / 2) by lia.
        rewrite <- Hl. unfold us_c_of. rewrite NEW. reflexivity.
  - destruct (Nat.odd (length l)) eqn:OD; cbn [negb andb xorb] in *.
    + replace ((length l + 1) / 2 - o' / 2) with (length l / 2 - o' / 2 + 1) by lia.
      rewrite seq_app, map_app. f_equal.
      * apply map_seq_ext. intros k Hk. symmetry. apply OLD. lia.
      * cbn [seq map]. replace (o' / 2 + (length l / 2 - o' / 2)) with (length l / 2) by lia.
        rewrite <- Hl. unfold us_c_of. rewrite NEW. reflexivity.
    + rewrite app_nil_r. replace ((length l + 1) / 2) with (length l / 2) by lia.
      apply map_seq_ext. intros k Hk. symmetry. apply OLD. lia.
  - rewrite Nat.odd_add. cbn. destruct (Nat.odd (length l)); reflexivity.
  - reflexivity.
  - rewrite map_length, seq_length. lia.
Qed.

Lemma us_inv : forall n, us_rel (us_ins n) (length (us_outs n)) (st n).
Proof.
  induction n as [|n IH].
  - unfold us_rel. change (us_ins 0) with (@nil yc2). change (us_outs 0) with (@nil ycc). repeat split; apply Nat.le_0_l.
  - unfold us_ins, us_outs. cbn [collect plus]. rewrite app_length.
    change (st (S n)) with (us_step (st n) (i n)).
    pose proof (us_rel_step _ _ _ (i n) IH) as R. unfold us_ins, us_outs, st in *.
    destruct (us_get (us_run i n) (i n)); exact R.
Qed.

Lemma us_outs_expected : forall n, us_outs n = map (us_expected (us_ins n)) (seq 0 (length (us_outs n))) /\
  length (us_outs n) <= 2 * (length (us_ins n) / 2).
Proof.
  induction n as [|n [IE IL]]; [split; [reflexivity|apply Nat.le_0_l]|].
  pose proof (us_inv n) as R. pose proof (us_rel_valid _ _ _ R) as V. pose proof (us_rel_source _ _ _ R) as SRC.
  destruct R as (Ho & _).
  pose proof (odd_half (length (us_ins n))) as Hh.
  assert (LE : length (us_ins n) / 2 <= length (us_ins (S n)) / 2).
  { apply Nat.div_le_mono; [lia|]. unfold us_ins. cbn [collect]. rewrite app_length. lia. }
  assert (EXT : forall k, k < 2 * (length (us_ins n) / 2) -> us_expected (us_ins (S n)) k = us_expected (us_ins n) k).
  { intros k Hk. unfold us_ins. cbn [collect plus]. fold (us_ins n).
    destruct (us_put (us_run i n) (i n)) as [p|]; [|rewrite app_nil_r; reflexivity].
    pose proof (odd_half k) as Hk2.
    assert (K2 : 2 * (k / 2) + 1 < length (us_ins n)).
    { assert (k / 2 < length (us_ins n) / 2) by (apply Nat.div_lt_upper_bound; lia). destruct (Nat.odd (length (us_ins n))); lia. }
    assert (K1 : k < length (us_ins n)) by (destruct (Nat.odd k); lia).
    unfold us_expected, us_y_of, us_c_of. rewrite !nth_app_old by lia. reflexivity. }
  unfold us_outs in *. cbn [collect plus]. set (outs := collect _ 0 n) in *.
  unfold us_get. unfold st in *. destruct (us_source_valid (us_run i n)) eqn:EV; cbn [andb].
  2:{ rewrite app_nil_r. split; [|lia]. rewrite IE at 1. apply map_seq_ext. intros k Hk. symmetry. apply EXT. lia. }
  symmetry in V. apply Nat.ltb_lt in V. fold outs in V.
  destruct (usi_ready (i n)).
  - rewrite app_length. cbn [length]. split; [|lia]. rewrite seq_app, map_app. f_equal.
    + rewrite IE at 1. apply map_seq_ext. intros k Hk. symmetry. apply EXT. lia.
    + cbn [seq map plus]. rewrite EXT by exact V. f_equal. apply SRC. reflexivity.
  - rewrite app_nil_r. split; [|lia]. rewrite IE at 1. apply map_seq_ext. intros k Hk. symmetry. apply EXT. lia.
Qed.
End Up.
