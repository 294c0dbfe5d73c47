(** The colour converters compute the reference formulas. *)
From Coq Require Import ZArith List Bool Lia.
From Verif Require Import Hdl Trace PipeModel PipeProofs CscModel CscSpec.
Import ListNotations.
Open Scope Z_scope.

Lemma pow_add1 : forall w k, 0 <= w -> 0 <= k -> 2 ^ (w + k) = 2 ^ w * 2 ^ k.
Proof. intros. apply Z.pow_add_r; assumption. Qed.

Lemma strunc_mod : forall n m a b, 0 < n <= m -> strunc n (a mod 2 ^ m + b) = strunc n (a + b).
Proof.
  intros n m a b H. unfold strunc. f_equal.
  replace m with (n + (m - n)) by lia. rewrite Z.pow_add_r by lia.
  assert (P : 0 < 2 ^ n) by (apply Z.pow_pos_nonneg; lia).
  assert (Q : 0 < 2 ^ (m - n)) by (apply Z.pow_pos_nonneg; lia).
  rewrite Z.rem_mul_r by lia.
  replace (a mod 2 ^ n + 2 ^ n * ((a / 2 ^ n) mod 2 ^ (m - n)) + b + 2 ^ (n - 1))
    with (a mod 2 ^ n + (b + 2 ^ (n - 1)) + ((a / 2 ^ n) mod 2 ^ (m - n)) * 2 ^ n) by ring.
  rewrite Z.mod_add by lia. rewrite Z.add_mod_idemp_l by lia. f_equal. ring.
Qed.

Lemma saturate_clamp : forall w x, 0 <= w -> saturate w x 0 (2 ^ w - 1) = clamp 0 (2 ^ w - 1) x.
Proof.
  intros w x Hw. assert (P : 0 < 2 ^ w) by (apply Z.pow_pos_nonneg; lia).
  unfold saturate, clamp. destruct (Z.ltb_spec (2 ^ w - 1) x); [|destruct (Z.ltb_spec x 0)]; rewrite trunc_id; lia.
Qed.

(** * RGB to YCbCr *)
Definition ry_fun (w : Z) (p : rgb) : ycc :=
  let yraw := strunc (w + 3) (slice 8 (w + 9)
     (strunc (w + 8 + 9) (strunc (w + 8 + 1) (strunc (w + 1) (c_r p - c_g p) * k_ca) +
                          strunc (w + 8 + 1) (strunc (w + 1) (c_b p - c_g p) * k_cb))) + c_g p) in
  let cb := strunc (w + 4) (slice 8 (w + 4) (strunc (w + 8 + 4) (strunc (w + 4) (c_b p - yraw) * k_cc)) + coffset w) in
  let cr := strunc (w + 4) (slice 8 (w + 4) (strunc (w + 8 + 4) (strunc (w + 4) (c_r p - yraw) * k_cd)) + coffset w) in
  {| c_y := saturate w (strunc (w + 3) (strunc (w + 3) (strunc (w + 3) yraw) + yoffset w)) 0 (2 ^ w - 1);
     c_cb := saturate w cb 0 (2 ^ w - 1);
     c_cr := saturate w cr 0 (2 ^ w - 1) |}.

Lemma ry_pure : forall w s x ys, S (length ys) = ry_latency ->
  ry_out (fold_left (ry_step w) (x :: ys) s) = ry_fun w x.
Proof.
  intros w s x ys H. unfold ry_latency in H.
  destruct ys as [|y1 [|y2 [|y3 [|y4 [|y5 [|y6 [|y7 [|y8 ys]]]]]]]]; try discriminate H. reflexivity.
Qed.

Lemma div_bounds : forall a lo hi, 0 < lo -> lo <= lo -> a / lo = hi -> lo * hi <= a < lo * hi + lo.
Proof. intros a lo hi H _ <-. pose proof (Z.div_mod a lo ltac:(lia)). pose proof (Z.mod_pos_bound a lo H). lia. Qed.

Lemma pow_m1 : forall w, 1 <= w -> 2 ^ w / 2 = 2 ^ (w - 1).
Proof. intros w H. replace w with (1 + (w - 1)) at 1 by lia. rewrite Z.pow_add_r by lia. change (2 ^ 1) with 2. rewrite Z.mul_comm. apply Z.div_mul. lia. Qed.
Lemma pow_m4 : forall w, 4 <= w -> 2 ^ w / 16 = 2 ^ (w - 4).
Proof. intros w H. replace w with (4 + (w - 4)) at 1 by lia. rewrite Z.pow_add_r by lia. change (2 ^ 4) with 16. rewrite Z.mul_comm. apply Z.div_mul. lia. Qed.

Ltac su k := (* strunc_id with the power of two spelled as multiple of 2^w *)
  rewrite strunc_id; [| match goal with |- - 2 ^ ?e <= _ < 2 ^ _ =>
      replace (2 ^ e) with (2 ^ k) by (f_equal; lia) end | lia].

Lemma strunc_small : forall w k x, 0 <= w -> 0 < k -> - (2 ^ w * 2 ^ (k - 1)) <= x < 2 ^ w * 2 ^ (k - 1) ->
  strunc (w + k) x = x.
Proof.
  intros w k x Hw Hk H. apply strunc_id; [|lia].
  replace (w + k - 1) with (w + (k - 1)) by lia. rewrite Z.pow_add_r by lia. exact H.
Qed.

Section Ry.
Variables (w : Z) (p : rgb).
Hypothesis Hw : 4 <= w.
Hypothesis ok : rgb_ok w p.
Let W := 2 ^ w.

Lemma luma_range : 0 <= luma p <= W - 1.
Proof.
  destruct ok as (R & G & B). unfold luma. fold W in R, G, B.
  set (q := _ / 256). pose proof (div_bounds _ 256 q ltac:(lia) ltac:(lia) eq_refl) as D. lia.
Qed.

Lemma ry_fun_spec : ry_fun w p = spec_ycc w p.
Proof.
  destruct ok as (R & G & B). fold W in R, G, B. pose proof luma_range as LR.
  assert (W16 : 16 <= W) by (unfold W; change 16 with (2 ^ 4); apply Z.pow_le_mono_r; lia).
  unfold ry_fun. unfold k_ca, k_cb, k_cc, k_cd.
  replace (w + 8 + 1) with (w + 9) by lia. replace (w + 8 + 9) with (w + 17) by lia. replace (w + 8 + 4) with (w + 12) by lia.
  rewrite (strunc_small w 1 (c_r p - c_g p)) by (fold W; change (2 ^ (1 - 1)) with 1; lia).
  rewrite (strunc_small w 1 (c_b p - c_g p)) by (fold W; change (2 ^ (1 - 1)) with 1; lia).
  rewrite (strunc_small w 9 ((c_r p - c_g p) * 46)) by (fold W; change (2 ^ (9 - 1)) with 256; lia).
  rewrite (strunc_small w 9 ((c_b p - c_g p) * 15)) by (fold W; change (2 ^ (9 - 1)) with 256; lia).
  rewrite (strunc_small w 17) by (fold W; change (2 ^ (17 - 1)) with 65536; lia).
  cbv zeta. unfold slice. change (2 ^ 8) with 256.
  rewrite !(strunc_mod (w + 3) (w + 9)) by lia.
  assert (EL : ((c_r p - c_g p) * 46 + (c_b p - c_g p) * 15) / 256 + c_g p = luma p).
  { unfold luma. f_equal. f_equal. lia. }
  rewrite !EL. set (l := luma p) in *.
  assert (S3 : strunc (w + 3) l = l) by (apply strunc_small; [lia|lia|fold W; change (2 ^ (3 - 1)) with 4; lia]).
  rewrite !S3.
  rewrite (strunc_small w 4 (c_b p - l)) by (fold W; change (2 ^ (4 - 1)) with 8; lia).
  rewrite (strunc_small w 4 (c_r p - l)) by (fold W; change (2 ^ (4 - 1)) with 8; lia).
  rewrite (strunc_small w 12 ((c_b p - l) * 141)) by (fold W; change (2 ^ (12 - 1)) with 2048; lia).
  rewrite (strunc_small w 12 ((c_r p - l) * 166)) by (fold W; change (2 ^ (12 - 1)) with 2048; lia).
  rewrite !(strunc_mod (w + 4) (w + 4)) by lia.
  unfold spec_ycc, coffset, yoffset. rewrite <- pow_m1, <- pow_m4 by lia. fold W. fold l.
  assert (H2 : 0 <= W / 2 <= W) by (split; [apply Z.div_pos; lia|apply Z.div_le_upper_bound; lia]).
  assert (H16 : 0 <= W / 16 <= W) by (split; [apply Z.div_pos; lia|apply Z.div_le_upper_bound; lia]).
  rewrite (strunc_small w 3) by (fold W; change (2 ^ (3 - 1)) with 4; lia).
  rewrite (strunc_small w 4).
  2,3: try lia. 2:{ fold W. change (2 ^ (4 - 1)) with 8.
    set (q := _ / 256). pose proof (div_bounds _ 256 q ltac:(lia) ltac:(lia) eq_refl). lia. }
  rewrite (strunc_small w 4).
  2,3: try lia. 2:{ fold W. change (2 ^ (4 - 1)) with 8.
    set (q := _ / 256). pose proof (div_bounds _ 256 q ltac:(lia) ltac:(lia) eq_refl). lia. }
  unfold W. rewrite !saturate_clamp by lia. fold W.
  rewrite (Z.mul_comm (c_b p - l)), (Z.mul_comm (c_r p - l)). reflexivity.
Qed.
End Ry.

(** * YCbCr to RGB *)
Definition yr_fun (w : Z) (q : ycc) : rgb :=
  let cbm := strunc (w + 1) (c_cb q - coffset w) in
  let crm := strunc (w + 1) (c_cr q - coffset w) in
  let ym := strunc (w + 1) (c_y q - yoffset w) in
  let m k x := slice 6 (w + 6) (strunc (w + 8 + 4) (x * k)) in
  {| c_r := saturate w (strunc (w + 4) (ym + m k_a crm)) 0 (2 ^ w - 1);
     c_g := saturate w (strunc (w + 4) (ym + m k_b cbm + m k_c crm)) 0 (2 ^ w - 1);
     c_b := saturate w (strunc (w + 4) (ym + m k_d cbm)) 0 (2 ^ w - 1) |}.

Lemma yr_pure : forall w s x ys, S (length ys) = yr_latency ->
  yr_out (fold_left (yr_step w) (x :: ys) s) = yr_fun w x.
Proof.
  intros w s x ys H. unfold yr_latency in H.
  destruct ys as [|y1 [|y2 [|y3 [|y4 ys]]]]; try discriminate H. reflexivity.
Qed.

Section Yr.
Variables (w : Z) (q : ycc).
Hypothesis Hw : 4 <= w.
Hypothesis ok : ycc_ok w q.
Let W := 2 ^ w.

Lemma yr_fun_spec : yr_fun w q = spec_rgb w q.
Proof.
  destruct ok as (Y & Cb & Cr). fold W in Y, Cb, Cr.
  assert (W16 : 16 <= W) by (unfold W; change 16 with (2 ^ 4); apply Z.pow_le_mono_r; lia).
  unfold yr_fun, coffset, yoffset, k_a, k_b, k_c, k_d. rewrite <- pow_m1, <- pow_m4 by lia. fold W.
  assert (H2 : 0 <= W / 2 <= W) by (split; [apply Z.div_pos; lia|apply Z.div_le_upper_bound; lia]).
  assert (H16 : 0 <= W / 16 <= W) by (split; [apply Z.div_pos; lia|apply Z.div_le_upper_bound; lia]).
  replace (w + 8 + 4) with (w + 12) by lia.
  rewrite !(strunc_small w 1) by (fold W; change (2 ^ (1 - 1)) with 1; lia).
  cbv zeta. unfold spec_rgb. fold W.
  set (y := c_y q - W / 16) in *. set (cb := c_cb q - W / 2) in *. set (cr := c_cr q - W / 2) in *.
  assert (By : - W <= y <= W) by lia. assert (Bb : - W <= cb <= W) by lia. assert (Br : - W <= cr <= W) by lia.
  rewrite !(strunc_small w 12) by (fold W; change (2 ^ (12 - 1)) with 2048; lia).
  unfold slice. change (2 ^ 6) with 64.
  assert (EM : forall a b, strunc (w + 4) (a + b mod 2 ^ (w + 6)) = strunc (w + 4) (b + a)).
  { intros a b. rewrite (Z.add_comm a). apply strunc_mod. lia. }
  rewrite !EM.
  replace (cr * -23 / 64 + (y + (cb * -9 / 64) mod 2 ^ (w + 6)))
     with (cr * -23 / 64 + y + (cb * -9 / 64) mod 2 ^ (w + 6)) by lia.
  rewrite EM. rewrite !saturate_clamp by lia.
  rewrite !(strunc_small w 4); try lia.
  - fold W. rewrite (Z.mul_comm cr 98), (Z.mul_comm cb 116), (Z.mul_comm cb (-9)), (Z.mul_comm cr (-23)).
    f_equal; f_equal; lia.
  - fold W. change (2 ^ (4 - 1)) with 8. set (z := _ / 64). pose proof (div_bounds _ 64 z ltac:(lia) ltac:(lia) eq_refl). lia.
  - fold W. change (2 ^ (4 - 1)) with 8.
    pose proof (div_bounds (cb * -9) 64 _ ltac:(lia) ltac:(lia) eq_refl).
    pose proof (div_bounds (cr * -23) 64 _ ltac:(lia) ltac:(lia) eq_refl). lia.
  - fold W. change (2 ^ (4 - 1)) with 8. set (z := _ / 64). pose proof (div_bounds _ 64 z ltac:(lia) ltac:(lia) eq_refl). lia.
Qed.
End Yr.
