(** C114, C115: the colour converters for every pixel width and coefficient width. *)
From Coq Require Import ZArith List Bool Lia.
From Verif Require Import Hdl Trace PipeModel PipeProofs CscModel CscSpec CscProofs CscProps CscWModel CscWSpec CscWProofs CscWCoef.
Import ListNotations.
Open Scope Z_scope.

(** CscModel.v is the case of equal pixel widths and coefficient width 8. *)
Theorem C114_default_is_a_case : forall w s i j,
  ryw_step w w 8 s i = ry_step w s i /\ forall t, yrw_step w w 8 t j = yr_step w t j.
Proof.
  intros w s i j. assert (K1 : ry_coefs_of 8 = {| k1_ca := 46; k1_cb := 15; k1_cc := 141; k1_cd := 166 |}) by (vm_compute; reflexivity).
  assert (K2 : yr_coefs_of 8 = {| k2_a := 98; k2_b := -9; k2_c := -23; k2_d := 116 |}) by (vm_compute; reflexivity).
  split; [unfold ryw_step; rewrite K1; reflexivity|]. intros t. unfold yrw_step. rewrite K2. reflexivity.
Qed.
Print Assumptions C114_default_is_a_case.

(** * Exact results, no overflow *)
Theorem C114_rgb2ycbcr : forall rw yw cw, 1 <= rw -> 4 <= yw <= rw + 3 -> 0 <= cw ->
  exists ca cb cc cd,
    close cw ca 1819 10000 /\ close cw cb 618 10000 /\ close cw cc 5512 10000 /\ close cw cd 6495 10000 /\
    forall s p ps, rgb_ok rw p -> length ps = 7%nat ->
      ry_out (fold_left (ryw_step rw yw cw) (p :: ps) s) = ycc_formula cw yw ca cb cc cd p.
Proof.
  intros rw yw cw Hr Hy Hc. pose proof (ry_coefs_close cw Hc) as K. pose proof (ry_coefs_bounds cw Hc) as B. cbv zeta in K, B.
  set (k := ry_coefs_of cw) in *. exists (k1_ca k), (k1_cb k), (k1_cc k), (k1_cd k). destruct K as (A1 & A2 & A3 & A4). destruct B as (B1 & B2).
  split; [exact A1|]. split; [exact A2|]. split; [exact A3|]. split; [exact A4|].
  intros s p ps ok L. unfold ryw_step. fold k. rewrite ryk_pure by (rewrite L; reflexivity). apply ryk_fun_spec; assumption.
Qed.
Print Assumptions C114_rgb2ycbcr.
Theorem C114_ycbcr2rgb : forall yw rw cw, 1 <= yw -> 4 <= rw <= yw + 1 -> 2 <= cw ->
  exists a b c d,
    close (cw - 2) a 10000 6495 /\ close (cw - 2) (- b) (618 * 10000) (5512 * 7563) /\
    close (cw - 2) (- c) (1819 * 10000) (6495 * 7563) /\ close (cw - 2) d 10000 5512 /\
    forall s q qs, ycc_ok yw q -> length qs = 3%nat ->
      yr_out (fold_left (yrw_step yw rw cw) (q :: qs) s) = rgb_formula (cw - 2) rw a b c d q.
Proof.
  intros yw rw cw Hy Hr Hc. pose proof (yr_coefs_close cw Hc) as K. pose proof (yr_coefs_bounds cw Hc) as B. cbv zeta in K, B.
  set (k := yr_coefs_of cw) in *. exists (k2_a k), (k2_b k), (k2_c k), (k2_d k). destruct K as (A1 & A2 & A3 & A4).
  split; [exact A1|]. split; [exact A2|]. split; [exact A3|]. split; [exact A4|].
  intros s q qs ok L. unfold yrw_step. fold k. rewrite yrk_pure by (rewrite L; reflexivity). apply yrk_fun_spec; assumption.
Qed.
Print Assumptions C114_ycbcr2rgb.

(** Up to 43 bits the coefficients are exactly the decimals rounded down. *)
Theorem C114_coefficients : forall cw, 0 <= cw <= 43 ->
  forall n, In n [1819; 618; 5512; 6495] -> coef (f_dec4 n) cw = n * 2 ^ cw / 10000.
Proof.
  intros cw H n I. apply Z.eqb_eq. revert n I. apply forallb_forall.
  apply (forallb_zrange 0 44 (fun cw => forallb (fun n => coef (f_dec4 n) cw =? n * 2 ^ cw / 10000) [1819; 618; 5512; 6495]));
    [vm_compute; reflexivity|]. change (Z.of_nat 44) with 44. lia.
Qed.
Print Assumptions C114_coefficients.

(** The limit on the widths is sharp: with a wider output the offset of the chroma does not fit and every grey comes
    out with both chroma components 0, the extreme green, instead of the middle of the scale. *)
Theorem C114_wider_output_wraps : forall rw yw cw v, 1 <= rw -> rw + 4 <= yw -> 0 <= cw -> 0 <= v < 2 ^ rw ->
  forall s ps, length ps = 7%nat ->
  let q := ry_out (fold_left (ryw_step rw yw cw) ({| c_r := v; c_g := v; c_b := v |} :: ps) s) in
  c_cb q = 0 /\ c_cr q = 0.
Proof.
  intros rw yw cw v Hr Hy Hc Hv s ps L q. unfold q, ryw_step. rewrite ryk_pure by (rewrite L; reflexivity).
  set (k := ry_coefs_of cw). unfold ryk_fun. cbn [c_cb c_cr c_r c_g c_b].
  assert (Z1 : forall n, 0 < n -> strunc n 0 = 0).
  { intros n Hn. apply strunc_id; [|lia]. assert (0 < 2 ^ (n - 1)) by (apply Z.pow_pos_nonneg; lia). lia. }
  assert (SL : forall lo n, slice lo n 0 = 0) by (intros lo n; unfold slice; rewrite Zdiv_0_l, Zmod_0_l; reflexivity).
  rewrite Z.sub_diag. rewrite (Z1 (rw + 1)) by lia. rewrite !Z.mul_0_l. rewrite !(Z1 (rw + cw + 1)) by lia. change (0 + 0) with 0.
  rewrite !(Z1 (rw + cw + 9)) by lia. rewrite SL, Z.add_0_l.
  assert (SV : strunc (rw + 3) v = v) by (apply strunc_small; [lia|lia|change (2 ^ (3 - 1)) with 4; lia]). rewrite SV, Z.sub_diag.
  rewrite (Z1 (rw + 4)) by lia. rewrite !Z.mul_0_l, !(Z1 (rw + cw + 4)) by lia. rewrite SL, Z.add_0_l.
  assert (O : strunc (rw + 4) (coffset yw) <= 0).
  { unfold coffset, strunc. assert (P3 : 0 < 2 ^ (rw + 3)) by (apply Z.pow_pos_nonneg; lia).
    assert (P4 : 2 ^ (rw + 4) = 2 * 2 ^ (rw + 3)) by (rewrite <- Z.pow_succ_r by lia; f_equal; lia).
    replace (rw + 4 - 1) with (rw + 3) by lia.
    assert (E : 2 ^ (yw - 1) = 2 ^ (yw - 1 - (rw + 3)) * 2 ^ (rw + 3)) by (rewrite <- Z.pow_add_r by lia; f_equal; lia).
    destruct (Z.eq_dec (yw - 1) (rw + 3)) as [X|X].
    - rewrite X. replace (2 ^ (rw + 3) + 2 ^ (rw + 3)) with (1 * 2 ^ (rw + 4)) by lia. rewrite Z.mod_mul by lia. lia.
    - assert (E' : 2 ^ (yw - 1) = 2 ^ (yw - 1 - (rw + 4)) * 2 ^ (rw + 4)) by (rewrite <- Z.pow_add_r by lia; f_equal; lia).
      rewrite E', Z.add_comm, Z.mod_add by lia. rewrite Z.mod_small by lia. lia. }
  assert (P : 0 < 2 ^ yw) by (apply Z.pow_pos_nonneg; lia).
  rewrite saturate_clamp by lia. unfold clamp. lia.
Qed.
Print Assumptions C114_wider_output_wraps.

(** The other way the limit is one bit: with rgb_w >= ycbcr_w + 2 the chroma offset vanishes.  The brightest code, whose
    red should be 0, shows red. *)
Theorem C114_wider_rgb_wraps : forall yw rw cw, 2 <= yw -> yw + 2 <= rw -> 2 <= cw ->
  forall s qs, length qs = 3%nat ->
  let m := 2 ^ yw - 1 in let q := {| c_y := m; c_cb := m; c_cr := m |} in
  0 < c_r (yr_out (fold_left (yrw_step yw rw cw) (q :: qs) s)) /\
  (m - 2 ^ rw / 16) + (10000 * (m - 2 ^ rw / 2)) / 6495 < 0.
Proof.
  intros yw rw cw Hy Hr Hc s qs L m q. set (W := 2 ^ yw) in *.
  assert (HW : 4 <= W) by (unfold W; change 4 with (2 ^ 2); apply Z.pow_le_mono_r; lia).
  assert (O1 : exists h, 1 <= h /\ 2 ^ (rw - 1) = h * (2 * W)).
  { exists (2 ^ (rw - 1 - (yw + 1))). split; [assert (0 < 2 ^ (rw - 1 - (yw + 1))) by (apply Z.pow_pos_nonneg; lia); lia|].
    unfold W. replace (2 * 2 ^ yw) with (2 ^ (yw + 1)) by (rewrite Z.pow_add_r by lia; change (2 ^ 1) with 2; lia).
    rewrite <- Z.pow_add_r by lia. f_equal. lia. }
  destruct O1 as (h & Hh & O1).
  assert (P4 : 0 < 2 ^ (rw - 4) \/ rw - 4 < 0) by (destruct (Z.le_gt_cases 0 (rw - 4)); [left; apply Z.pow_pos_nonneg; lia|right; lia]).
  destruct P4 as [P4|P4]; [|lia].
  split.
  - unfold yrw_step. rewrite yrk_pure by (rewrite L; reflexivity). pose proof (yr_coefs_close cw Hc) as (KA & _). pose proof (yr_coefs_bounds cw Hc) as (BA & _).
    cbv zeta in KA, BA. set (k := yr_coefs_of cw) in *. unfold yrk_fun, q. cbn [c_r c_y c_cb c_cr].
    assert (CR : strunc (yw + 1) (m - coffset rw) = m).
    { unfold coffset, strunc. rewrite O1. replace (yw + 1 - 1) with yw by lia. fold W.
      replace (2 ^ (yw + 1)) with (2 * W) by (unfold W; rewrite Z.pow_add_r by lia; change (2 ^ 1) with 2; lia).
      replace (m - h * (2 * W) + W) with (m + W + (- h) * (2 * W)) by ring. rewrite Z.mod_add by lia. rewrite Z.mod_small by lia. lia. }
    rewrite CR.
    assert (YM : -1 <= strunc (yw + 1) (m - yoffset rw) <= W).
    { unfold yoffset. destruct (Z.le_gt_cases rw (yw + 4)) as [LE|GT].
      - assert (2 ^ (rw - 4) <= W) by (unfold W; apply Z.pow_le_mono_r; lia).
        rewrite (strunc_small yw 1) by (fold W; change (2 ^ (1 - 1)) with 1; lia). lia.
      - assert (E : 2 ^ (rw - 4) = 2 ^ (rw - 4 - (yw + 1)) * (2 * W)).
        { unfold W. replace (2 * 2 ^ yw) with (2 ^ (yw + 1)) by (rewrite Z.pow_add_r by lia; change (2 ^ 1) with 2; lia). rewrite <- Z.pow_add_r by lia. f_equal. lia. }
        set (j := 2 ^ (rw - 4 - (yw + 1))) in E. unfold strunc. rewrite E. replace (yw + 1 - 1) with yw by lia. fold W.
        replace (2 ^ (yw + 1)) with (2 * W) by (unfold W; rewrite Z.pow_add_r by lia; change (2 ^ 1) with 2; lia).
        replace (m - j * (2 * W) + W) with (m + W + (- j) * (2 * W)) by ring. rewrite Z.mod_add by lia. rewrite Z.mod_small by lia. lia. }
    set (ym := strunc (yw + 1) (m - yoffset rw)) in *. clearbody ym.
    set (D := 2 ^ (cw - 2)) in *. assert (PD : 0 < D) by (unfold D; apply Z.pow_pos_nonneg; lia).
    assert (E4 : 2 ^ (yw + cw) = 4 * (W * D)).
    { unfold W, D. rewrite (Z.pow_add_r 2 yw cw) by lia. replace cw with (2 + (cw - 2)) at 1 by lia. rewrite Z.pow_add_r by lia. change (2 ^ 2) with 4. ring. }
    assert (AD : D <= k2_a k).
    { destruct KA as [KA _]. unfold D in *. set (T := 2 ^ 50) in *. assert (ET : T = 1125899906842624) by reflexivity. clearbody T. subst T.
      clear - KA PD. set (d := 2 ^ (cw - 2)) in *. lia. }
    assert (MB : m * D <= m * k2_a k <= m * (2 * D)) by (split; apply Z.mul_le_mono_nonneg_l; lia).
    rewrite (strunc_small (yw + cw) 4 (m * k2_a k)) by (first [lia | rewrite E4; change (2 ^ (4 - 1)) with 8; assert (m * (2 * D) <= W * (2 * D)) by (apply Z.mul_le_mono_nonneg_r; lia); lia]).
    unfold slice. fold D. rewrite (Z.add_comm ym), strunc_mod by lia.
    pose proof (div_range (m * k2_a k) D m (2 * m) PD ltac:(lia)) as RR.
    rewrite (strunc_small yw 4) by (first [lia | fold W; change (2 ^ (4 - 1)) with 8; lia]).
    rewrite saturate_clamp by lia. assert (W <= 2 ^ rw) by (unfold W; apply Z.pow_le_mono_r; lia). unfold clamp. lia.
  - rewrite pow_m1, pow_m4, O1 by lia. assert (W <= h * W) by nia.
    assert (10000 * (m - h * (2 * W)) / 6495 <= - m - 1); [|lia].
    apply Z.div_le_upper_bound; [lia|]. lia.
Qed.
Print Assumptions C114_wider_rgb_wraps.

(** * Accuracy *)
Lemma clamp_near : forall a b M k, 0 < k -> Z.abs (k * clamp 0 M a - clamp 0 (M * k) b) <= Z.abs (k * a - b).
Proof.
  intros a b M k Hk. unfold clamp.
  destruct (Z.le_ge_cases M a); [rewrite (Z.min_l M a) by lia|rewrite (Z.min_r M a) by lia].
  - destruct (Z.le_ge_cases 0 M); [rewrite (Z.max_r 0 M) by lia|rewrite (Z.max_l 0 M) by lia]; nia.
  - destruct (Z.le_ge_cases 0 a); [rewrite (Z.max_r 0 a) by lia|rewrite (Z.max_l 0 a) by lia]; nia.
Qed.
(** A coefficient times a bounded value. *)
Lemma close_mul : forall f k num den x W, 0 <= f -> 0 < den -> - W <= x <= W -> close f k num den ->
  - (den * ((2 ^ 50 + 2 ^ f) * W)) <= 2 ^ 50 * (den * (k * x)) - 2 ^ 50 * (num * (2 ^ f * x)) <= den * ((2 ^ 50 + 2 ^ f) * W).
Proof.
  intros f k num den x W Hf Hd Hx (A & B). set (T := 2 ^ 50) in *. assert (PT : 0 < T) by (unfold T; lia). assert (PD : 0 < 2 ^ f) by (apply Z.pow_pos_nonneg; lia).
  set (D := 2 ^ f) in *. set (e := T * (den * k - num * D)). assert (E : - (den * (T + D)) <= e <= den * (T + D)) by (unfold e; nia).
  replace (T * (den * (k * x)) - T * (num * (D * x))) with (e * x) by (unfold e; ring). set (Q := den * (T + D)) in *.
  replace (den * ((T + D) * W)) with (W * Q) by (unfold Q; ring). assert (0 <= Q) by (unfold Q; nia). clearbody e Q. nia.
Qed.
Lemma floor_mul : forall a D T, 0 < D -> 0 < T -> T * (D * (a / D)) <= T * a < T * (D * (a / D)) + T * D.
Proof. intros a D T HD HT. pose proof (div_bounds a D _ HD ltac:(lia) eq_refl). nia. Qed.

Section Forward.
Variables (rw cw : Z) (ca cb cc cd : Z) (p : rgb).
Hypothesis Hrw : 1 <= rw.
Hypothesis Hcw : 0 <= cw.
Hypothesis ok : rgb_ok rw p.
Hypothesis Ka : close cw ca 1819 10000.
Hypothesis Kb : close cw cb 618 10000.
Let W := 2 ^ rw. Let D := 2 ^ cw. Let T := 2 ^ 50. Let E := (T + D) * W.
Lemma luma_near : - (10000 * (T * D + 2 * E)) <= T * (D * (10000 * lumaw cw ca cb p - exact_luma p)) <= 10000 * (2 * E).
Proof.
  destruct ok as (R & G & B). fold W in R, G, B. assert (PD : 0 < D) by (unfold D; apply Z.pow_pos_nonneg; lia). assert (PT : 0 < T) by (unfold T; lia).
  pose proof (close_mul cw ca 1819 10000 (c_r p - c_g p) W Hcw ltac:(lia) ltac:(lia) Ka) as A1.
  pose proof (close_mul cw cb 618 10000 (c_b p - c_g p) W Hcw ltac:(lia) ltac:(lia) Kb) as A2. fold T D in A1, A2. fold E in A1, A2.
  unfold lumaw, exact_luma. fold D. set (x := c_r p - c_g p) in *. set (y := c_b p - c_g p) in *. set (S := ca * x + cb * y).
  pose proof (floor_mul S D T PD PT) as F. set (q := S / D) in *.
  replace (T * (D * (10000 * (q + c_g p) - (1819 * x + 618 * y + 10000 * c_g p))))
    with (10000 * (T * (D * q)) - T * (1819 * (D * x)) - T * (618 * (D * y))) by ring.
  assert (TS : T * (10000 * (ca * x)) + T * (10000 * (cb * y)) = 10000 * (T * S)) by (unfold S; ring).
  clearbody q S x y. lia.
Qed.
Lemma chroma_near : forall k num v, 0 <= num -> close cw k num 10000 -> 0 <= v < W -> 0 <= lumaw cw ca cb p < W ->
  Z.abs (T * (D * (10 ^ 8 * (k * (v - lumaw cw ca cb p) / D) - num * (10000 * v - exact_luma p)))) <= 10 ^ 4 * ((10000 + num) * (T * D) + (10000 + 2 * num) * E).
Proof.
  intros k num v Hn Kk Hv Hl. pose proof luma_near as N. assert (PD : 0 < D) by (unfold D; apply Z.pow_pos_nonneg; lia). assert (PT : 0 < T) by (unfold T; lia).
  set (l := lumaw cw ca cb p) in *. set (X := exact_luma p) in *. clearbody l X.
  pose proof (close_mul cw k num 10000 (v - l) W Hcw ltac:(lia) ltac:(lia) Kk) as A1. fold T D in A1. fold E in A1.
  pose proof (floor_mul (k * (v - l)) D T PD PT) as F. set (q := _ / D) in *.
  set (y := T * (D * (10000 * l - X))) in *.
  replace (T * (D * (10 ^ 8 * q - num * (10000 * v - X))))
    with (10 ^ 8 * (T * (D * q)) - 10000 * (T * (num * (D * (v - l)))) - num * y) by (unfold y; change (10 ^ 8) with (100000000); ring).
  assert (NY : - (num * (10000 * (T * D + 2 * E))) <= num * y <= num * (10000 * (2 * E))) by (clearbody y; nia).
  assert (TE : 0 < T * D) by nia. assert (NT : 0 <= num * (T * D)) by nia.
  change (10 ^ 8) with 100000000. change (10 ^ 4) with 10000.
  replace (10000 * ((10000 + num) * (T * D) + (10000 + 2 * num) * E)) with (100000000 * (T * D) + 10000 * (num * (T * D)) + 100000000 * E + 20000 * (num * E)) by ring.
  replace (num * (10000 * (T * D + 2 * E))) with (10000 * (num * (T * D)) + 20000 * (num * E)) in NY by ring.
  replace (num * (10000 * (2 * E))) with (20000 * (num * E)) in NY by ring.
  assert (0 <= E) by (unfold E; assert (0 < W) by (unfold W; apply Z.pow_pos_nonneg; lia); nia).
  clearbody y q T D E. lia.
Qed.
End Forward.

Theorem C114_accuracy : forall rw yw cw, 1 <= rw -> 4 <= yw <= rw + 3 -> 0 <= cw ->
  forall s p ps, rgb_ok rw p -> length ps = 7%nat ->
  let q := ry_out (fold_left (ryw_step rw yw cw) (p :: ps) s) in
  let T := 2 ^ 50 in let D := 2 ^ cw in let W := 2 ^ rw in
  (* one step, and two relative errors 2^-cw + 2^-50 of the full scale *)
  T * D * Z.abs (10 ^ 4 * c_y q - exact_yw yw p) <= 10 ^ 4 * (T * D + 2 * ((T + D) * W)) /\
  (* 1.5512 steps and 2.1024 relative errors; 1.6495 steps and 2.299 relative errors *)
  T * D * Z.abs (10 ^ 8 * c_cb q - exact_cbw yw p) <= 10 ^ 4 * (15512 * (T * D) + 21024 * ((T + D) * W)) /\
  T * D * Z.abs (10 ^ 8 * c_cr q - exact_crw yw p) <= 10 ^ 4 * (16495 * (T * D) + 22990 * ((T + D) * W)).
Proof.
  intros rw yw cw Hr Hy Hc s p ps ok L q T D W. pose proof (ry_coefs_close cw Hc) as K. pose proof (ry_coefs_bounds cw Hc) as B. cbv zeta in K, B.
  unfold q, ryw_step. rewrite ryk_pure by (rewrite L; reflexivity). set (k := ry_coefs_of cw) in *. destruct K as (A1 & A2 & A3 & A4). destruct B as (B1 & B2).
  rewrite ryk_fun_spec by assumption. pose proof (lumaw_range rw yw cw k Hr Hc Hy B1 p ok) as LR. clear q.
  pose proof (luma_near rw cw _ _ p Hr Hc ok A1 A2) as N. destruct ok as (R & G & Bl).
  pose proof (chroma_near rw cw _ _ p Hr Hc (conj R (conj G Bl)) A1 A2 (k1_cc k) 5512 (c_b p) ltac:(lia) A3 Bl ltac:(lia)) as N2.
  pose proof (chroma_near rw cw _ _ p Hr Hc (conj R (conj G Bl)) A1 A2 (k1_cd k) 6495 (c_r p) ltac:(lia) A4 R ltac:(lia)) as N3.
  fold T D W in N, N2, N3. assert (PD : 0 < D) by (unfold D; apply Z.pow_pos_nonneg; lia). assert (PT : 0 < T) by (unfold T; lia).
  assert (PW : 0 < W) by (unfold W; apply Z.pow_pos_nonneg; lia).
  assert (LIP : forall x z M kk Q, 0 < kk -> Z.abs (T * (D * (kk * x - z))) <= Q -> T * D * Z.abs (kk * clamp 0 M x - clamp 0 (M * kk) z) <= Q).
  { intros x z M kk Q Hk HQ. rewrite Z.mul_assoc in HQ. rewrite Z.abs_mul, (Z.abs_eq (T * D)) in HQ by nia.
    eapply Z.le_trans; [|exact HQ]. apply Z.mul_le_mono_nonneg_l; [nia|]. apply clamp_near. exact Hk. }
  unfold ycc_formula. cbn [c_y c_cb c_cr]. set (l := lumaw cw (k1_ca k) (k1_cb k) p) in *. unfold exact_yw, exact_cbw, exact_crw. fold D.
  split; [|split]; (apply LIP; [reflexivity|]).
  - replace (10 ^ 4 * (l + 2 ^ yw / 16) - (exact_luma p + 2 ^ yw / 16 * 10 ^ 4)) with (10000 * l - exact_luma p) by (change (10 ^ 4) with 10000; lia).
    change (10 ^ 4) with 10000. assert (0 <= T * D) by nia. assert (0 <= (T + D) * W) by nia. lia.
  - match goal with |- Z.abs (T * (D * ?a)) <= _ => replace a with (10 ^ 8 * (k1_cc k * (c_b p - l) / D) - 5512 * (10000 * c_b p - exact_luma p)) by lia end.
    exact N2.
  - match goal with |- Z.abs (T * (D * ?a)) <= _ => replace a with (10 ^ 8 * (k1_cd k * (c_r p - l) / D) - 6495 * (10000 * c_r p - exact_luma p)) by lia end.
    exact N3.
Qed.
Print Assumptions C114_accuracy.

Theorem C114_inverse_accuracy : forall yw rw cw, 1 <= yw -> 4 <= rw <= yw + 1 -> 2 <= cw ->
  forall s q qs, ycc_ok yw q -> length qs = 3%nat ->
  let p := yr_out (fold_left (yrw_step yw rw cw) (q :: qs) s) in
  let T := 2 ^ 50 in let D := 2 ^ (cw - 2) in let W := 2 ^ yw in
  (* one step (green: two) and one (green: two) relative errors 2^-(cw-2) + 2^-50 of the full scale *)
  T * D * Z.abs (6495 * c_r p - exact_rw rw q) <= 6495 * (T * D + (T + D) * W) /\
  T * D * Z.abs (5512 * 6495 * 7563 * c_g p - exact_gw rw q) <= 5512 * 6495 * 7563 * (2 * (T * D) + 2 * ((T + D) * W)) /\
  T * D * Z.abs (5512 * c_b p - exact_bw rw q) <= 5512 * (T * D + (T + D) * W).
Proof.
  intros yw rw cw Hy Hr Hc s q qs ok L p T D W. destruct (C114_ycbcr2rgb yw rw cw Hy Hr Hc) as (a & b & c & d & A1 & A2 & A3 & A4 & F).
  unfold p. rewrite F by assumption. clear F p. unfold rgb_formula. cbn [c_r c_g c_b]. fold D. destruct ok as (Y & Cb & Cr). fold W in Y, Cb, Cr.
  assert (PD : 0 < D) by (unfold D; apply Z.pow_pos_nonneg; lia). assert (PT : 0 < T) by (unfold T; lia). assert (PW : 0 < W) by (unfold W; apply Z.pow_pos_nonneg; lia).
  assert (O1 : 0 <= 2 ^ rw / 2 <= W) by (rewrite pow_m1 by lia; unfold W; split; [apply Z.pow_nonneg; lia|apply Z.pow_le_mono_r; lia]).
  assert (LIP : forall x z M kk Q, 0 < kk -> Z.abs (T * (D * (kk * x - z))) <= Q -> T * D * Z.abs (kk * clamp 0 M x - clamp 0 (M * kk) z) <= Q).
  { intros x z M kk Q Hk HQ. rewrite Z.mul_assoc in HQ. rewrite Z.abs_mul, (Z.abs_eq (T * D)) in HQ by nia.
    eapply Z.le_trans; [|exact HQ]. apply Z.mul_le_mono_nonneg_l; [nia|]. apply clamp_near. exact Hk. }
  unfold exact_rw, exact_gw, exact_bw. set (y := c_y q - 2 ^ rw / 16). set (cb := c_cb q - 2 ^ rw / 2). set (cr := c_cr q - 2 ^ rw / 2).
  assert (Bb : - W <= cb <= W) by (unfold cb; lia). assert (Br : - W <= cr <= W) by (unfold cr; lia). clearbody y cb cr.
  set (E := (T + D) * W). assert (PE : 0 <= E) by (unfold E; nia). assert (PTD : 0 <= T * D) by nia. fold E.
  assert (ONE : forall k num den x, 0 < den -> - W <= x <= W -> close (cw - 2) k num den ->
    - (den * (T * D + E)) <= T * (D * (den * (k * x / D) - num * x)) <= den * E).
  { intros k num den x Hd Hx Kk. pose proof (close_mul (cw - 2) k num den x W ltac:(lia) Hd Hx Kk) as M. fold T D in M. fold E in M.
    pose proof (floor_mul (k * x) D T PD PT) as Fl. set (z := _ / D) in *.
    replace (T * (D * (den * z - num * x))) with (den * (T * (D * z)) - T * (num * (D * x))) by ring.
    replace (T * (den * (k * x))) with (den * (T * (k * x))) in M by ring. clearbody z.
    assert (den * (T * (D * z)) <= den * (T * (k * x)) < den * (T * (D * z) + T * D)) by nia. lia. }
  assert (NEG : forall k num den x, 0 < den -> - W <= x <= W -> close (cw - 2) (- k) num den ->
    - (den * (T * D + E)) <= T * (D * (den * (k * x / D) + num * x)) <= den * E).
  { intros k num den x Hd Hx Kk. pose proof (ONE (- k) num den (- x) Hd ltac:(lia) Kk) as M.
    replace (- k * - x) with (k * x) in M by ring. replace (num * - x) with (- (num * x)) in M by ring. rewrite Z.sub_opp_r in M. exact M. }
  split; [|split].
  - apply LIP; [lia|]. replace (6495 * (y + a * cr / D) - (6495 * y + 10000 * cr)) with (6495 * (a * cr / D) - 10000 * cr) by lia.
    pose proof (ONE a 10000 6495 cr ltac:(lia) Br A1). lia.
  - apply LIP; [lia|]. pose proof (NEG b (618 * 10000) (5512 * 7563) cb ltac:(lia) Bb A2) as M1. pose proof (NEG c (1819 * 10000) (6495 * 7563) cr ltac:(lia) Br A3) as M2.
    match goal with |- Z.abs (T * (D * ?e)) <= _ =>
      replace (T * (D * e)) with (6495 * (T * (D * (5512 * 7563 * (b * cb / D) + 618 * 10000 * cb))) + 5512 * (T * (D * (6495 * 7563 * (c * cr / D) + 1819 * 10000 * cr)))) by ring end.
    lia.
  - apply LIP; [lia|]. replace (5512 * (y + d * cb / D) - (5512 * y + 10000 * cb)) with (5512 * (d * cb / D) - 10000 * cb) by lia.
    pose proof (ONE d 10000 5512 cb ltac:(lia) Bb A4). lia.
Qed.
Print Assumptions C114_inverse_accuracy.

(** * Every handshake schedule *)
Theorem C114_rgb2ycbcr_stream : forall rw yw cw, 1 <= rw -> 4 <= yw <= rw + 3 -> 0 <= cw ->
  exists ca cb cc cd,
    close cw ca 1819 10000 /\ close cw cb 618 10000 /\ close cw cc 5512 10000 /\ close cw cd 6495 10000 /\
    forall i n, (forall t, rgb_ok rw (pai_data _ (i t))) ->
    exists rest, map (ycc_formula cw yw ca cb cc cd) (pa_inputs ry_st rgb (ryw_step rw yw cw) ry_init 8 i n) =
      pa_outputs ry_st rgb ycc (ryw_step rw yw cw) ry_out ry_init 8 i n ++ rest /\ (length rest <= 8)%nat.
Proof.
  intros rw yw cw Hr Hy Hc. destruct (C114_rgb2ycbcr rw yw cw Hr Hy Hc) as (ca & cb & cc & cd & A1 & A2 & A3 & A4 & F).
  exists ca, cb, cc, cd. split; [exact A1|]. split; [exact A2|]. split; [exact A3|]. split; [exact A4|]. intros i n Hi.
  destruct (pa_stream ry_st rgb ycc (ryw_step rw yw cw) ry_out ry_init 8 ltac:(lia) i (ryk_fun rw yw cw (ry_coefs_of cw))
              ltac:(intros s x ys H; apply ryk_pure; exact H) n) as (rest & E & L).
  exists (map (ryk_fun rw yw cw (ry_coefs_of cw)) rest). split; [|rewrite map_length; exact L]. rewrite <- E.
  apply (map_eq_on _ _ _ _ (rgb_ok rw)).
  - intros p ok. rewrite <- (F ry_init p (repeat rgb0 7) ok eq_refl). apply ryk_pure. reflexivity.
  - apply pa_inputs_all. exact Hi.
Qed.
Print Assumptions C114_rgb2ycbcr_stream.
Theorem C114_ycbcr2rgb_stream : forall yw rw cw, 1 <= yw -> 4 <= rw <= yw + 1 -> 2 <= cw ->
  exists a b c d,
    close (cw - 2) a 10000 6495 /\ close (cw - 2) (- b) (618 * 10000) (5512 * 7563) /\
    close (cw - 2) (- c) (1819 * 10000) (6495 * 7563) /\ close (cw - 2) d 10000 5512 /\
    forall i n, (forall t, ycc_ok yw (pai_data _ (i t))) ->
    exists rest, map (rgb_formula (cw - 2) rw a b c d) (pa_inputs yr_st ycc (yrw_step yw rw cw) yr_init 4 i n) =
      pa_outputs yr_st ycc rgb (yrw_step yw rw cw) yr_out yr_init 4 i n ++ rest /\ (length rest <= 4)%nat.
Proof.
  intros yw rw cw Hy Hr Hc. destruct (C114_ycbcr2rgb yw rw cw Hy Hr Hc) as (a & b & c & d & A1 & A2 & A3 & A4 & F).
  exists a, b, c, d. split; [exact A1|]. split; [exact A2|]. split; [exact A3|]. split; [exact A4|]. intros i n Hi.
  destruct (pa_stream yr_st ycc rgb (yrw_step yw rw cw) yr_out yr_init 4 ltac:(lia) i (yrk_fun yw rw cw (yr_coefs_of cw))
              ltac:(intros s x ys H; apply yrk_pure; exact H) n) as (rest & E & L).
  exists (map (yrk_fun yw rw cw (yr_coefs_of cw)) rest). split; [|rewrite map_length; exact L]. rewrite <- E.
  apply (map_eq_on _ _ _ _ (ycc_ok yw)).
  - intros p ok. rewrite <- (F yr_init p (repeat ycc0 3) ok eq_refl). apply yrk_pure. reflexivity.
  - apply pa_inputs_all. exact Hi.
Qed.
Print Assumptions C114_ycbcr2rgb_stream.


(** * C115: there and back *)
Lemma there_and_back : forall f D' W T k a num x, (num = 5512 \/ num = 6495) -> T = 2 ^ 50 -> 0 <= f -> D' = 2 ^ f ->
  0 < W -> 16 * W <= D' -> 1024 * W <= T -> - W <= x <= W -> close (f + 2) k num 10000 -> close f a 10000 num -> 0 <= k <= 4 * D' ->
  -2 <= a * (k * x / (4 * D')) / D' - x <= 0.
Proof.
  intros f D' W T k a num x HN HT Hf HD HW H16 HT2 Hx Kk Ka Hk.
  assert (PT : 0 < T) by (rewrite HT; lia). assert (PD : 0 < D') by lia.
  pose proof (close_mul (f + 2) k num 10000 x W ltac:(lia) ltac:(lia) Hx Kk) as A. rewrite <- HT in A.
  replace (2 ^ (f + 2)) with (4 * D') in A by (rewrite HD, Z.pow_add_r by lia; change (2 ^ 2) with 4; lia).
  pose proof (floor_mul (k * x) (4 * D') T ltac:(lia) PT) as F. 
  pose proof (mul_bound x k W (4 * D') Hx Hk) as KX.
  pose proof (div_range (k * x) (4 * D') (- W) W ltac:(lia) ltac:(rewrite (Z.mul_comm k x); lia)) as RV. set (v := k * x / (4 * D')) in *.
  pose proof (close_mul f a 10000 num v W Hf ltac:(lia) RV Ka) as B. rewrite <- HT, <- HD in B.
  pose proof (floor_mul (a * v) D' T PD PT) as G. set (z := a * v / D') in *. clearbody z v.
  assert (E1 : 1024 * ((T + 4 * D') * W) <= 68 * (T * D')).
  { assert (64 * (T * (16 * W)) <= 64 * (T * D')) by (apply Z.mul_le_mono_nonneg_l; [lia|]; apply Z.mul_le_mono_nonneg_l; lia).
    assert (4 * (D' * (1024 * W)) <= 4 * (D' * T)) by (apply Z.mul_le_mono_nonneg_l; [lia|]; apply Z.mul_le_mono_nonneg_l; lia). lia. }
  assert (E2 : 1024 * ((T + D') * W) <= 65 * (T * D')).
  { assert (64 * (T * (16 * W)) <= 64 * (T * D')) by (apply Z.mul_le_mono_nonneg_l; [lia|]; apply Z.mul_le_mono_nonneg_l; lia).
    assert (D' * (1024 * W) <= D' * T) by (apply Z.mul_le_mono_nonneg_l; lia). lia. }
  set (e1 := (T + 4 * D') * W) in *. set (e2 := (T + D') * W) in *. clearbody e1 e2.
  assert (S : - 3 * (T * D') < T * (D' * (z - x)) < 1 * (T * D')).
  { replace (T * (4 * D' * v)) with (4 * (T * (D' * v))) in F by ring. replace (T * (4 * D')) with (4 * (T * D')) in F by ring.
    replace (T * (num * (4 * D' * x))) with (4 * (num * (T * (D' * x)))) in A by ring.
    replace (T * (10000 * (k * x))) with (10000 * (T * (k * x))) in A by ring.
    replace (T * (num * (a * v))) with (num * (T * (a * v))) in B by ring. replace (T * (10000 * (D' * v))) with (10000 * (T * (D' * v))) in B by ring.
    replace (T * (D' * (z - x))) with (T * (D' * z) - T * (D' * x)) by ring.
    assert (0 < T * D') by nia.
    set (u := T * D') in *. set (pv := T * (D' * v)) in *. set (px := T * (D' * x)) in *. set (pz := T * (D' * z)) in *. set (pk := T * (k * x)) in *.
    set (pa := T * (a * v)) in *. clearbody u pv px pz pk pa. clear - HN A F B G E1 E2 H. destruct HN as [-> | ->]; lia. }
  assert (0 < T * D') by nia. rewrite Z.mul_assoc in S. nia.
Qed.

Theorem C115_round_trip : forall w cw, 4 <= w <= 40 -> w + 6 <= cw ->
  forall s p ps s' qs, rgb_ok w p -> length ps = 7%nat -> length qs = 3%nat ->
  let q := ry_out (fold_left (ryw_step w w cw) (p :: ps) s) in
  let p' := yr_out (fold_left (yrw_step w w cw) (q :: qs) s') in
  c_y q < 2 ^ w - 1 -> 0 < c_cb q < 2 ^ w - 1 -> 0 < c_cr q < 2 ^ w - 1 ->
  -2 <= c_r p' - c_r p <= 0 /\ -3 <= c_g p' - c_g p <= 0 /\ -2 <= c_b p' - c_b p <= 0.
Proof.
  intros w cw Hw Hc s p ps s' qs ok L L' q p' Iy Ib Ir.
  assert (Hc0 : 0 <= cw) by lia. assert (Hc2 : 2 <= cw) by lia.
  pose proof (ry_coefs_close cw Hc0) as K. pose proof (ry_coefs_bounds cw Hc0) as Bd. cbv zeta in K, Bd.
  assert (Q : q = ycc_formula cw w (k1_ca (ry_coefs_of cw)) (k1_cb (ry_coefs_of cw)) (k1_cc (ry_coefs_of cw)) (k1_cd (ry_coefs_of cw)) p).
  { unfold q, ryw_step. rewrite ryk_pure by (rewrite L; reflexivity). destruct Bd as (B1 & B2). apply ryk_fun_spec; try assumption; lia. }
  assert (QO : ycc_ok w q).
  { rewrite Q. unfold ycc_ok, ycc_formula, clamp. cbn [c_y c_cb c_cr]. assert (0 < 2 ^ w) by (apply Z.pow_pos_nonneg; lia). lia. }
  set (k := ry_coefs_of cw) in *. destruct K as (A1 & A2 & A3 & A4). destruct Bd as (B1 & B2).
  pose proof (lumaw_range w w cw k ltac:(lia) Hc0 ltac:(lia) B1 p ok) as LR.
  destruct (C114_ycbcr2rgb w w cw ltac:(lia) ltac:(lia) Hc2) as (a & b & c & d & K1 & K2 & K3 & K4 & F).
  assert (P' : p' = rgb_formula (cw - 2) w a b c d q) by (unfold p'; apply F; assumption). clear F.
  pose proof (luma_near w cw _ _ p ltac:(lia) Hc0 ok A1 A2) as N.
  clearbody p'. subst p'. clearbody q. destruct ok as (R & G & Bl).
  unfold ycc_formula in Q. set (l := lumaw cw (k1_ca k) (k1_cb k) p) in *. cbv zeta in Q.
  assert (CY0 : c_y q = clamp 0 (2 ^ w - 1) (l + 2 ^ w / 16)) by (rewrite Q; reflexivity).
  assert (CB0 : c_cb q = clamp 0 (2 ^ w - 1) (k1_cc k * (c_b p - l) / 2 ^ cw + 2 ^ w / 2)) by (rewrite Q; reflexivity).
  assert (CR0 : c_cr q = clamp 0 (2 ^ w - 1) (k1_cd k * (c_r p - l) / 2 ^ cw + 2 ^ w / 2)) by (rewrite Q; reflexivity).
  assert (O16 : 0 <= 2 ^ w / 16) by (apply Z.div_pos; [apply Z.pow_nonneg; lia|lia]).
  unfold clamp in CY0, CB0, CR0.
  assert (EY : c_y q - 2 ^ w / 16 = l) by (clear - CY0 O16 Iy LR; lia).
  assert (EB : c_cb q - 2 ^ w / 2 = k1_cc k * (c_b p - l) / 2 ^ cw) by (clear - CB0 Ib; lia).
  assert (ER : c_cr q - 2 ^ w / 2 = k1_cd k * (c_r p - l) / 2 ^ cw) by (clear - CR0 Ir; lia).
  clear CY0 CB0 CR0 O16.
  unfold rgb_formula. rewrite EY, EB, ER. cbn [c_r c_g c_b]. clear Q QO Iy Ib Ir EY EB ER.
  set (D' := 2 ^ (cw - 2)) in *. set (W := 2 ^ w) in *.
  assert (ED : 2 ^ cw = 4 * D').
  { unfold D'. replace cw with ((cw - 2) + 2) at 1 by lia. rewrite Z.pow_add_r by lia. change (2 ^ 2) with 4. lia. }
  assert (H16 : 16 * W <= D').
  { unfold W, D'. change 16 with (2 ^ 4). rewrite <- Z.pow_add_r by lia. apply Z.pow_le_mono_r; lia. }
  assert (HT : 1024 * W <= 2 ^ 50).
  { unfold W. change 1024 with (2 ^ 10). rewrite <- Z.pow_add_r by lia. apply Z.pow_le_mono_r; lia. }
  assert (PW : 0 < W) by (unfold W; apply Z.pow_pos_nonneg; lia). fold W in R, G, Bl.
  rewrite ED in *.
  assert (A3' : close ((cw - 2) + 2) (k1_cc k) 5512 10000) by (replace (cw - 2 + 2) with cw by lia; exact A3).
  assert (A4' : close ((cw - 2) + 2) (k1_cd k) 6495 10000) by (replace (cw - 2 + 2) with cw by lia; exact A4).
  pose proof (there_and_back (cw - 2) D' W (2 ^ 50) (k1_cd k) a 6495 (c_r p - l) (or_intror eq_refl) eq_refl ltac:(lia) eq_refl PW H16 HT ltac:(lia) A4' K1 (proj2 B2)) as TR.
  pose proof (there_and_back (cw - 2) D' W (2 ^ 50) (k1_cc k) d 5512 (c_b p - l) (or_introl eq_refl) eq_refl ltac:(lia) eq_refl PW H16 HT ltac:(lia) A3' K4 (proj1 B2)) as TB.
  assert (CL : forall lo x v, lo <= 0 -> 0 <= v < W -> lo <= x - v <= 0 -> lo <= clamp 0 (W - 1) x - v <= 0) by (intros; unfold clamp; lia).
  split; [apply CL; [lia|assumption|lia]|]. split; [|apply CL; [lia|assumption|lia]].
  apply CL; [lia|assumption|].
  (* green *)
  set (x := c_r p - l) in *. set (y := c_b p - l) in *. set (T := 2 ^ 50) in *. assert (PT : 0 < T) by (unfold T; lia). assert (PD : 0 < D') by lia.
  assert (Rx : - W <= x <= W) by (unfold x; lia). assert (Ry : - W <= y <= W) by (unfold y; lia).
  pose proof (close_mul cw (k1_cd k) 6495 10000 x W Hc0 ltac:(reflexivity) Rx A4) as CX. pose proof (close_mul cw (k1_cc k) 5512 10000 y W Hc0 ltac:(reflexivity) Ry A3) as CY. rewrite ED in CX, CY. fold T in CX, CY.
  pose proof (floor_mul (k1_cd k * x) (4 * D') T ltac:(lia) PT) as FX. pose proof (floor_mul (k1_cc k * y) (4 * D') T ltac:(lia) PT) as FY.
  pose proof (mul_bound x (k1_cd k) W (4 * D') Rx (proj2 B2)) as KX. pose proof (mul_bound y (k1_cc k) W (4 * D') Ry (proj1 B2)) as KY.
  pose proof (div_range (k1_cd k * x) (4 * D') (- W) W ltac:(lia) ltac:(rewrite (Z.mul_comm (k1_cd k) x); lia)) as RX.
  pose proof (div_range (k1_cc k * y) (4 * D') (- W) W ltac:(lia) ltac:(rewrite (Z.mul_comm (k1_cc k) y); lia)) as RY.
  set (vr := k1_cd k * x / (4 * D')) in *. set (vb := k1_cc k * y / (4 * D')) in *.
  pose proof (close_mul (cw - 2) (- b) (618 * 10000) (5512 * 7563) vb W ltac:(lia) ltac:(lia) RY K2) as CB.
  pose proof (close_mul (cw - 2) (- c) (1819 * 10000) (6495 * 7563) vr W ltac:(lia) ltac:(lia) RX K3) as CC. fold D' T in CB, CC.
  pose proof (floor_mul (b * vb) D' T PD PT) as FB. pose proof (floor_mul (c * vr) D' T PD PT) as FC.
  set (zb := b * vb / D') in *. set (zc := c * vr / D') in *. clearbody zb zc vr vb.
  assert (E1 : 1024 * ((T + 4 * D') * W) <= 68 * (T * D')).
  { assert (64 * (T * (16 * W)) <= 64 * (T * D')) by (apply Z.mul_le_mono_nonneg_l; [lia|]; apply Z.mul_le_mono_nonneg_l; lia).
    assert (4 * (D' * (1024 * W)) <= 4 * (D' * T)) by (apply Z.mul_le_mono_nonneg_l; [lia|]; apply Z.mul_le_mono_nonneg_l; lia). lia. }
  assert (E2 : 1024 * ((T + D') * W) <= 65 * (T * D')).
  { assert (64 * (T * (16 * W)) <= 64 * (T * D')) by (apply Z.mul_le_mono_nonneg_l; [lia|]; apply Z.mul_le_mono_nonneg_l; lia).
    assert (D' * (1024 * W) <= D' * T) by (apply Z.mul_le_mono_nonneg_l; lia). lia. }
  fold T in N. set (e1 := (T + 4 * D') * W) in *. set (e2 := (T + D') * W) in *. clearbody e1 e2.
  assert (S : - 4 * (T * D') < T * (D' * (l + zb + zc - c_g p)) < 1 * (T * D')).
  { unfold exact_luma in N. unfold x, y in *. clear x y. set (r := c_r p) in *. set (g := c_g p) in *. set (bl := c_b p) in *. clearbody r g bl l.
    replace (T * (4 * D' * (10000 * l - (1819 * (r - g) + 618 * (bl - g) + 10000 * g))))
      with (40000 * (T * (D' * l)) - 7276 * (T * (D' * r)) - 2472 * (T * (D' * bl)) - 30252 * (T * (D' * g))) in N by ring.
    replace (T * (4 * D')) with (4 * (T * D')) in * by ring.
    replace (T * (4 * D' * vr)) with (4 * (T * (D' * vr))) in FX by ring. replace (T * (4 * D' * vb)) with (4 * (T * (D' * vb))) in FY by ring.
    replace (T * (6495 * (4 * D' * (r - l)))) with (25980 * (T * (D' * r)) - 25980 * (T * (D' * l))) in CX by ring.
    replace (T * (5512 * (4 * D' * (bl - l)))) with (22048 * (T * (D' * bl)) - 22048 * (T * (D' * l))) in CY by ring.
    replace (T * (10000 * (k1_cd k * (r - l)))) with (10000 * (T * (k1_cd k * (r - l)))) in CX by ring.
    replace (T * (10000 * (k1_cc k * (bl - l)))) with (10000 * (T * (k1_cc k * (bl - l)))) in CY by ring.
    replace (T * (5512 * 7563 * (- b * vb))) with (- (5512 * 7563) * (T * (b * vb))) in CB by ring.
    replace (T * (6495 * 7563 * (- c * vr))) with (- (6495 * 7563) * (T * (c * vr))) in CC by ring.
    replace (T * (618 * 10000 * (D' * vb))) with (618 * 10000 * (T * (D' * vb))) in CB by ring.
    replace (T * (1819 * 10000 * (D' * vr))) with (1819 * 10000 * (T * (D' * vr))) in CC by ring.
    replace (T * (D' * (l + zb + zc - g))) with (T * (D' * l) + T * (D' * zb) + T * (D' * zc) - T * (D' * g)) by ring.
    assert (PU : 0 < T * D') by nia.
    set (u := T * D') in *. set (pl := T * (D' * l)) in *. set (pr := T * (D' * r)) in *. set (pb := T * (D' * bl)) in *. set (pg := T * (D' * g)) in *.
    set (pvr := T * (D' * vr)) in *. set (pvb := T * (D' * vb)) in *. set (pzb := T * (D' * zb)) in *. set (pzc := T * (D' * zc)) in *.
    set (m1 := T * (k1_cd k * (r - l))) in *. set (m2 := T * (k1_cc k * (bl - l))) in *. set (m3 := T * (b * vb)) in *. set (m4 := T * (c * vr)) in *.
    clearbody u pl pr pb pg pvr pvb pzb pzc m1 m2 m3 m4. clear - N CX CY FX FY CB CC FB FC E1 E2 PU. lia. }
  assert (0 < T * D') by nia. rewrite Z.mul_assoc in S. clear - S H. nia.
Qed.
Print Assumptions C115_round_trip.

(** A colour of ten bits with 16-bit coefficients: inside the range, and its way there and back. *)
Definition ex_w_p : rgb := {| c_r := 300; c_g := 500; c_b := 700 |}.
Definition ex_w_q : ycc := ry_out (fold_left (ryw_step 10 10 16) (ex_w_p :: repeat rgb0 7) ry_init).
Example C115_case : rgb_ok 10 ex_w_p /\ ex_w_q = {| c_y := 539; c_cb := 636; c_cr := 398 |} /\
  yr_out (fold_left (yrw_step 10 10 16) (ex_w_q :: repeat ycc0 3) yr_init) = {| c_r := 299; c_g := 498; c_b := 699 |}.
Proof. vm_compute. repeat split; discriminate. Qed.
(** Unequal widths: eight bits to ten.  The offsets are those of ten bits, the scale stays that of eight. *)
Example C114_case : ry_out (fold_left (ryw_step 8 10 8) ({| c_r := 255; c_g := 255; c_b := 255 |} :: repeat rgb0 7) ry_init) =
  {| c_y := 319; c_cb := 512; c_cr := 512 |}.
Proof. vm_compute. reflexivity. Qed.
