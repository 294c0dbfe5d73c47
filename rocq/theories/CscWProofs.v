(** The converters with arbitrary widths compute the reference formulas: lemmas. *)
From Coq Require Import ZArith List Bool Lia.
From Coq Require Import Floats.SpecFloat.
From Verif Require Import Hdl CscModel CscSpec CscProofs CscWModel CscWSpec.
Import ListNotations.
Open Scope Z_scope.

Lemma mul_bound : forall x y X Y, - X <= x <= X -> 0 <= y <= Y -> - (X * Y) <= x * y <= X * Y.
Proof. intros x y X Y Hx Hy. split; nia. Qed.
Lemma div_range : forall a D lo hi, 0 < D -> D * lo <= a <= D * hi -> lo <= a / D <= hi.
Proof.
  intros a D lo hi HD H. split.
  - apply Z.div_le_lower_bound; lia.
  - apply Z.div_le_upper_bound; lia.
Qed.

(** * RGB to YCbCr *)
Section Ry.
Variables (rw yw cw : Z) (k : ry_coefs).
Hypothesis Hrw : 1 <= rw.
Hypothesis Hcw : 0 <= cw.
Hypothesis Hyw : 4 <= yw <= rw + 3.
Let W := 2 ^ rw.
Let D := 2 ^ cw.
Hypothesis Hab : 0 <= k1_ca k /\ 0 <= k1_cb k /\ k1_ca k + k1_cb k <= D.
Hypothesis Hcd : 0 <= k1_cc k <= D /\ 0 <= k1_cd k <= D.

Lemma rw_W : 2 <= W. Proof. unfold W. change 2 with (2 ^ 1) at 1. apply Z.pow_le_mono_r; lia. Qed.
Lemma rw_D : 1 <= D. Proof. unfold D. change 1 with (2 ^ 0) at 1. apply Z.pow_le_mono_r; lia. Qed.
Lemma rw_off : 0 <= 2 ^ (yw - 4) <= W /\ 0 <= 2 ^ (yw - 1) <= 4 * W.
Proof.
  unfold W. replace (4 * 2 ^ rw) with (2 ^ (rw + 2)) by (rewrite Z.pow_add_r by lia; change (2 ^ 2) with 4; lia).
  split; (split; [apply Z.pow_nonneg; lia|apply Z.pow_le_mono_r; lia]).
Qed.

Definition ryk_fun (p : rgb) : ycc :=
  let yraw := strunc (rw + 3) (slice cw (rw + 9)
     (strunc (rw + cw + 9) (strunc (rw + cw + 1) (strunc (rw + 1) (c_r p - c_g p) * k1_ca k) +
                            strunc (rw + cw + 1) (strunc (rw + 1) (c_b p - c_g p) * k1_cb k))) + c_g p) in
  let cb := strunc (rw + 4) (slice cw (rw + 4) (strunc (rw + cw + 4) (strunc (rw + 4) (c_b p - yraw) * k1_cc k)) + coffset yw) in
  let cr := strunc (rw + 4) (slice cw (rw + 4) (strunc (rw + cw + 4) (strunc (rw + 4) (c_r p - yraw) * k1_cd k)) + coffset yw) in
  {| c_y := saturate yw (strunc (rw + 3) (strunc (rw + 3) (strunc (rw + 3) yraw) + yoffset yw)) 0 (2 ^ yw - 1);
     c_cb := saturate yw cb 0 (2 ^ yw - 1);
     c_cr := saturate yw cr 0 (2 ^ yw - 1) |}.
Lemma ryk_pure : forall s x ys, S (length ys) = ry_latency -> ry_out (fold_left (ryk_step rw yw cw k) (x :: ys) s) = ryk_fun x.
Proof.
  intros s x ys H. unfold ry_latency in H.
  destruct ys as [|y1 [|y2 [|y3 [|y4 [|y5 [|y6 [|y7 [|y8 ys]]]]]]]]; try discriminate H. reflexivity.
Qed.

Section Pixel.
Variable p : rgb.
Hypothesis ok : rgb_ok rw p.
Lemma lumaw_range : 0 <= lumaw cw (k1_ca k) (k1_cb k) p <= W - 1.
Proof.
  destruct ok as (R & G & B). fold W in R, G, B. pose proof rw_D as HD. unfold lumaw. fold D.
  rewrite <- Z.div_add by lia. apply div_range; [lia|].
  replace (k1_ca k * (c_r p - c_g p) + k1_cb k * (c_b p - c_g p) + c_g p * D)
    with (k1_ca k * c_r p + k1_cb k * c_b p + (D - k1_ca k - k1_cb k) * c_g p) by ring.
  destruct Hab as (A & B' & AB). set (e := D - k1_ca k - k1_cb k). assert (0 <= e) by (unfold e; lia).
  assert (X1 : 0 <= k1_ca k * c_r p <= k1_ca k * (W - 1)) by nia.
  assert (X2 : 0 <= k1_cb k * c_b p <= k1_cb k * (W - 1)) by nia.
  assert (X3 : 0 <= e * c_g p <= e * (W - 1)) by nia.
  replace (D * (W - 1)) with (k1_ca k * (W - 1) + k1_cb k * (W - 1) + e * (W - 1)) by (unfold e; ring). lia.
Qed.

Lemma ryk_fun_spec : ryk_fun p = ycc_formula cw yw (k1_ca k) (k1_cb k) (k1_cc k) (k1_cd k) p.
Proof.
  pose proof lumaw_range as LR. pose proof rw_W as HW. pose proof rw_D as HD. pose proof rw_off as (HO4 & HO1).
  destruct ok as (R & G & B). fold W in R, G, B. destruct Hab as (A1 & A2 & A3). destruct Hcd as (C1 & C2).
  assert (WD : 2 ^ (rw + cw) = W * D) by (unfold W, D; apply Z.pow_add_r; lia).
  unfold ryk_fun.
  rewrite (strunc_small rw 1 (c_r p - c_g p)) by (fold W; change (2 ^ (1 - 1)) with 1; lia).
  rewrite (strunc_small rw 1 (c_b p - c_g p)) by (fold W; change (2 ^ (1 - 1)) with 1; lia).
  pose proof (mul_bound (c_r p - c_g p) (k1_ca k) (W - 1) (k1_ca k) ltac:(lia) ltac:(lia)) as M1.
  pose proof (mul_bound (c_b p - c_g p) (k1_cb k) (W - 1) (k1_cb k) ltac:(lia) ltac:(lia)) as M2.
  assert (M3 : (W - 1) * k1_ca k + (W - 1) * k1_cb k <= W * D - D) by nia.
  rewrite (strunc_small (rw + cw) 1 ((c_r p - c_g p) * k1_ca k)) by (first [lia | rewrite WD; change (2 ^ (1 - 1)) with 1; nia]).
  rewrite (strunc_small (rw + cw) 1 ((c_b p - c_g p) * k1_cb k)) by (first [lia | rewrite WD; change (2 ^ (1 - 1)) with 1; nia]).
  rewrite (strunc_small (rw + cw) 9) by (first [lia | rewrite WD; change (2 ^ (9 - 1)) with 256; nia]).
  cbv zeta. unfold slice. fold D.
  rewrite !(strunc_mod (rw + 3) (rw + 9)) by lia.
  assert (EL : ((c_r p - c_g p) * k1_ca k + (c_b p - c_g p) * k1_cb k) / D + c_g p = lumaw cw (k1_ca k) (k1_cb k) p).
  { unfold lumaw. fold D. f_equal. f_equal. lia. }
  rewrite !EL. unfold ycc_formula. set (l := lumaw cw (k1_ca k) (k1_cb k) p) in *. fold D.
  assert (S3 : strunc (rw + 3) l = l) by (apply strunc_small; [lia|lia|fold W; change (2 ^ (3 - 1)) with 4; lia]).
  rewrite !S3.
  rewrite (strunc_small rw 4 (c_b p - l)) by (fold W; change (2 ^ (4 - 1)) with 8; lia).
  rewrite (strunc_small rw 4 (c_r p - l)) by (fold W; change (2 ^ (4 - 1)) with 8; lia).
  pose proof (mul_bound (c_b p - l) (k1_cc k) (W - 1) D ltac:(lia) ltac:(lia)) as M4.
  pose proof (mul_bound (c_r p - l) (k1_cd k) (W - 1) D ltac:(lia) ltac:(lia)) as M5.
  rewrite (strunc_small (rw + cw) 4 ((c_b p - l) * k1_cc k)) by (first [lia | rewrite WD; change (2 ^ (4 - 1)) with 8; nia]).
  rewrite (strunc_small (rw + cw) 4 ((c_r p - l) * k1_cd k)) by (first [lia | rewrite WD; change (2 ^ (4 - 1)) with 8; nia]).
  rewrite !(strunc_mod (rw + 4) (rw + 4)) by lia.
  pose proof (div_range ((c_b p - l) * k1_cc k) D (- (W - 1)) (W - 1) ltac:(lia) ltac:(lia)) as Q1.
  pose proof (div_range ((c_r p - l) * k1_cd k) D (- (W - 1)) (W - 1) ltac:(lia) ltac:(lia)) as Q2.
  unfold coffset, yoffset.
  rewrite (strunc_small rw 3 (l + 2 ^ (yw - 4))) by (first [lia | fold W; change (2 ^ (3 - 1)) with 4; lia]).
  rewrite (strunc_small rw 4 ((c_b p - l) * k1_cc k / D + 2 ^ (yw - 1))) by (first [lia | fold W; change (2 ^ (4 - 1)) with 8; lia]).
  rewrite (strunc_small rw 4 ((c_r p - l) * k1_cd k / D + 2 ^ (yw - 1))) by (first [lia | fold W; change (2 ^ (4 - 1)) with 8; lia]).
  rewrite !saturate_clamp by lia. rewrite pow_m1, pow_m4 by lia.
  rewrite (Z.mul_comm (c_b p - l)), (Z.mul_comm (c_r p - l)). reflexivity.
Qed.
End Pixel.
End Ry.

(** * YCbCr to RGB *)
Section Yr.
Variables (yw rw cw : Z) (k : yr_coefs).
Hypothesis Hyw : 1 <= yw.
Hypothesis Hcw : 2 <= cw.
Hypothesis Hrw : 4 <= rw <= yw + 1.
Let W := 2 ^ yw.
Let D := 2 ^ (cw - 2).
Hypothesis Hk : 0 <= k2_a k <= 2 * D /\ 0 <= - k2_b k <= D /\ 0 <= - k2_c k <= D /\ 0 <= k2_d k <= 2 * D.

Definition yrk_fun (q : ycc) : rgb :=
  let cbm := strunc (yw + 1) (c_cb q - coffset rw) in
  let crm := strunc (yw + 1) (c_cr q - coffset rw) in
  let ym := strunc (yw + 1) (c_y q - yoffset rw) in
  let m c x := slice (cw - 2) (yw + 6) (strunc (yw + cw + 4) (x * c)) in
  {| c_r := saturate rw (strunc (yw + 4) (ym + m (k2_a k) crm)) 0 (2 ^ rw - 1);
     c_g := saturate rw (strunc (yw + 4) (ym + m (k2_b k) cbm + m (k2_c k) crm)) 0 (2 ^ rw - 1);
     c_b := saturate rw (strunc (yw + 4) (ym + m (k2_d k) cbm)) 0 (2 ^ rw - 1) |}.
Lemma yrk_pure : forall s x ys, S (length ys) = yr_latency -> yr_out (fold_left (yrk_step yw rw cw k) (x :: ys) s) = yrk_fun x.
Proof.
  intros s x ys H. unfold yr_latency in H. destruct ys as [|y1 [|y2 [|y3 [|y4 ys]]]]; try discriminate H. reflexivity.
Qed.

Lemma yrk_fun_spec : forall q, ycc_ok yw q -> yrk_fun q = rgb_formula (cw - 2) rw (k2_a k) (k2_b k) (k2_c k) (k2_d k) q.
Proof.
  intros q (Y & Cb & Cr). fold W in Y, Cb, Cr. destruct Hk as (K1 & K2 & K3 & K4).
  assert (HW : 2 <= W) by (unfold W; change 2 with (2 ^ 1) at 1; apply Z.pow_le_mono_r; lia).
  assert (HD : 1 <= D) by (unfold D; change 1 with (2 ^ 0) at 1; apply Z.pow_le_mono_r; lia).
  assert (O1 : 0 <= 2 ^ (rw - 1) <= W) by (unfold W; split; [apply Z.pow_nonneg; lia|apply Z.pow_le_mono_r; lia]).
  assert (O4 : 0 <= 2 ^ (rw - 4) <= W) by (unfold W; split; [apply Z.pow_nonneg; lia|apply Z.pow_le_mono_r; lia]).
  unfold yrk_fun, coffset, yoffset. rewrite !(strunc_small yw 1) by (fold W; change (2 ^ (1 - 1)) with 1; lia).
  unfold rgb_formula. rewrite pow_m1, pow_m4 by lia. cbv zeta. fold D.
  set (y := c_y q - 2 ^ (rw - 4)). set (cb := c_cb q - 2 ^ (rw - 1)). set (cr := c_cr q - 2 ^ (rw - 1)).
  assert (By : - W <= y <= W) by (unfold y; lia). assert (Bb : - W <= cb <= W) by (unfold cb; lia). assert (Br : - W <= cr <= W) by (unfold cr; lia).
  clearbody y cb cr.
  assert (E4 : 2 ^ (yw + cw) = 4 * (W * D)).
  { unfold W, D. rewrite (Z.pow_add_r 2 yw cw) by lia. replace cw with (2 + (cw - 2)) at 1 by lia. rewrite Z.pow_add_r by lia. change (2 ^ 2) with 4. ring. }
  assert (MM : forall c x, - (2 * D) <= c <= 2 * D -> - W <= x <= W -> strunc (yw + cw + 4) (x * c) = c * x /\ - (2 * W) <= c * x / D <= 2 * W).
  { intros c x Hc Hx. assert (B : - (W * (2 * D)) <= x * c <= W * (2 * D)).
    { destruct (Z.le_ge_cases 0 c); [apply mul_bound; lia|].
      pose proof (mul_bound x (- c) W (2 * D) Hx ltac:(lia)). lia. }
    split; [|apply div_range; lia]. rewrite (strunc_small (yw + cw) 4); [ring|lia|lia|]. rewrite E4. change (2 ^ (4 - 1)) with 8.
    assert (0 <= W * D) by nia. lia. }
  destruct (MM (k2_a k) cr ltac:(lia) Br) as (E1 & R1). destruct (MM (k2_b k) cb ltac:(lia) Bb) as (E2 & R2).
  destruct (MM (k2_c k) cr ltac:(lia) Br) as (E3 & R3). destruct (MM (k2_d k) cb ltac:(lia) Bb) as (E5 & R5).
  assert (RB : - W <= k2_b k * cb / D <= W).
  { apply div_range; [lia|]. pose proof (mul_bound cb (- k2_b k) W D Bb ltac:(lia)). lia. }
  assert (RC : - W <= k2_c k * cr / D <= W).
  { apply div_range; [lia|]. pose proof (mul_bound cr (- k2_c k) W D Br ltac:(lia)). lia. }
  rewrite E1, E2, E3, E5. unfold slice. fold D.
  assert (EM : forall a b, strunc (yw + 4) (a + b mod 2 ^ (yw + 6)) = strunc (yw + 4) (b + a)).
  { intros a b. rewrite (Z.add_comm a). apply strunc_mod. lia. }
  rewrite !EM.
  replace (k2_c k * cr / D + (y + (k2_b k * cb / D) mod 2 ^ (yw + 6)))
     with (k2_c k * cr / D + y + (k2_b k * cb / D) mod 2 ^ (yw + 6)) by lia.
  rewrite EM. rewrite !saturate_clamp by lia.
  rewrite (strunc_small yw 4 (k2_a k * cr / D + y)) by (try lia; fold W; change (2 ^ (4 - 1)) with 8; lia).
  rewrite (strunc_small yw 4 (k2_d k * cb / D + y)) by (try lia; fold W; change (2 ^ (4 - 1)) with 8; lia).
  rewrite (strunc_small yw 4 (k2_b k * cb / D + (k2_c k * cr / D + y))) by (try lia; fold W; change (2 ^ (4 - 1)) with 8; lia).
  f_equal; f_equal; lia.
Qed.
End Yr.
