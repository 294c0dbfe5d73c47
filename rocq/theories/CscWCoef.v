(** The coefficients of the colour converters for every coefficient width: lemmas. *)
From Coq Require Import ZArith List Bool Lia.
From Coq Require Import Floats.SpecFloat.
From Verif Require Import Hdl CscModel CscSpec CscProofs CscWModel CscWSpec CscWProofs.
Import ListNotations.
Open Scope Z_scope.

(** * The coefficients *)
(** The product of a float with 2**cw is exact: the literal reading of coef() and the model's agree. *)
Lemma coef_float_agrees : forall cw v, 0 <= cw <= 1000 -> In v [f_ca; f_cb; f_cc; f_cd; f_a; f_b; f_c; f_d] -> coef_float v cw = coef v cw.
Proof.
  intros cw v H I. apply Z.eqb_eq. revert v I. apply forallb_forall.
  apply (forallb_zrange 0 1001 (fun cw => forallb (fun v => coef_float v cw =? coef v cw) [f_ca; f_cb; f_cc; f_cd; f_a; f_b; f_c; f_d]));
    [vm_compute; reflexivity|]. change (Z.of_nat 1001) with 1001. lia.
Qed.

Lemma coef_val : forall s m e cw, e <= 0 -> 0 <= cw -> coef (S754_finite s m e) cw = (if s then -1 else 1) * (Zpos m * 2 ^ cw / 2 ^ (- e)).
Proof.
  intros s m e cw He Hc. unfold coef, f_to_int. f_equal. destruct (Z.leb_spec 0 (e + cw)).
  - assert (P : 2 ^ cw = 2 ^ (e + cw) * 2 ^ (- e)) by (rewrite <- Z.pow_add_r by lia; f_equal; lia).
    rewrite P, Z.mul_assoc, Z.div_mul; [reflexivity|]. apply Z.pow_nonzero; lia.
  - assert (P : 2 ^ (- e) = 2 ^ (- (e + cw)) * 2 ^ cw) by (rewrite <- Z.pow_add_r by lia; f_equal; lia). rewrite P.
    rewrite Z.div_mul_cancel_r; [reflexivity| |]; apply Z.pow_nonzero; lia.
Qed.
Lemma close_val : forall m E f num den, 0 <= E -> 0 <= f -> 0 < den ->
  (2 ^ 50 * Z.abs (Zpos m * den - num * 2 ^ E) <=? den * 2 ^ E) = true -> close f (Zpos m * 2 ^ f / 2 ^ E) num den.
Proof.
  intros m E f num den HE Hf Hd C. apply Z.leb_le in C. unfold close. set (k := _ / _).
  assert (PE : 0 < 2 ^ E) by (apply Z.pow_pos_nonneg; lia). assert (PF : 0 < 2 ^ f) by (apply Z.pow_pos_nonneg; lia).
  pose proof (div_bounds (Zpos m * 2 ^ f) (2 ^ E) k PE ltac:(lia) eq_refl) as B. clearbody k.
  set (T := 2 ^ 50) in *. assert (PT : 0 < T) by (unfold T; lia). set (X := 2 ^ E) in *. set (D := 2 ^ f) in *.
  set (d := Zpos m * den - num * X) in *. assert (C1 : T * d <= den * X) by lia. assert (C2 : T * (- d) <= den * X) by lia.
  assert (E1 : X * (num * D - den * k) = den * (Zpos m * D - X * k) - d * D) by (unfold d; ring).
  assert (M1 : den * (Zpos m * D - X * k) <= den * X) by nia. assert (M2 : 0 <= den * (Zpos m * D - X * k)) by nia.
  assert (N1 : T * (- d) * D <= den * X * D) by nia. assert (N2 : T * d * D <= den * X * D) by nia.
  split; apply (Z.mul_le_mono_pos_l _ _ X PE).
  - replace (X * (T * (num * D - den * k))) with (T * (X * (num * D - den * k))) by ring. rewrite E1.
    replace (T * (den * (Zpos m * D - X * k) - d * D)) with (T * (den * (Zpos m * D - X * k)) + T * (- d) * D) by ring.
    replace (X * (den * (T + D))) with (T * (den * X) + den * X * D) by ring.
    assert (T * (den * (Zpos m * D - X * k)) <= T * (den * X)) by (apply Z.mul_le_mono_nonneg_l; lia). lia.
  - replace (X * (T * (den * k - num * D))) with (- (T * (X * (num * D - den * k)))) by ring. rewrite E1.
    replace (- (T * (den * (Zpos m * D - X * k) - d * D))) with (T * d * D - T * (den * (Zpos m * D - X * k))) by ring.
    replace (X * (den * D)) with (den * X * D) by ring.
    assert (0 <= T * (den * (Zpos m * D - X * k))) by (apply Z.mul_nonneg_nonneg; lia). lia.
Qed.

Ltac coef_tac := match goal with |- close _ (coef ?v _) _ _ => let x := eval vm_compute in v in change v with x end;
  rewrite coef_val by lia; rewrite ?Z.mul_1_l; apply close_val; [lia|lia|lia|vm_compute; reflexivity].
Ltac coef_neg := match goal with |- close _ (- coef ?v _) _ _ => let x := eval vm_compute in v in change v with x end;
  rewrite coef_val by lia; rewrite <- Z.mul_opp_l; change (- (-1)) with 1; rewrite ?Z.mul_1_l; apply close_val; [lia|lia|lia|vm_compute; reflexivity].
Lemma ry_coefs_close : forall cw, 0 <= cw -> let k := ry_coefs_of cw in
  close cw (k1_ca k) 1819 10000 /\ close cw (k1_cb k) 618 10000 /\ close cw (k1_cc k) 5512 10000 /\ close cw (k1_cd k) 6495 10000.
Proof.
  intros cw H k. unfold k, ry_coefs_of. cbn [k1_ca k1_cb k1_cc k1_cd].
  split; [coef_tac|]. split; [coef_tac|]. split; coef_tac.
Qed.
(** 1/0.6495, 0.0618/(0.5512*0.7563), 0.1819/(0.6495*0.7563), 1/0.5512. *)
Lemma yr_coefs_close : forall cw, 2 <= cw -> let k := yr_coefs_of cw in
  close (cw - 2) (k2_a k) 10000 6495 /\ close (cw - 2) (- k2_b k) (618 * 10000) (5512 * 7563) /\
  close (cw - 2) (- k2_c k) (1819 * 10000) (6495 * 7563) /\ close (cw - 2) (k2_d k) 10000 5512.
Proof.
  intros cw H k. unfold k, yr_coefs_of. cbn [k2_a k2_b k2_c k2_d].
  split; [coef_tac|]. split; [coef_neg|]. split; [coef_neg|coef_tac].
Qed.
Lemma coef_sign : forall cw, 0 <= cw -> 0 <= coef f_ca cw /\ 0 <= coef f_cb cw /\ 0 <= coef f_cc cw /\ 0 <= coef f_cd cw /\
  0 <= coef f_a cw /\ coef f_b cw <= 0 /\ coef f_c cw <= 0 /\ 0 <= coef f_d cw.
Proof.
  intros cw H. assert (P : 0 < 2 ^ cw) by (apply Z.pow_pos_nonneg; lia).
  assert (Q : forall m e, e <= 0 -> 0 <= Zpos m * 2 ^ cw / 2 ^ (- e)) by (intros m e He; apply Z.div_pos; [lia|apply Z.pow_pos_nonneg; lia]).
  unfold f_ca, f_cb, f_cc, f_cd, f_a, f_b, f_c, f_d.
  repeat split; match goal with |- context [coef ?v _] => let x := eval vm_compute in v in change v with x; rewrite coef_val by lia end;
    rewrite ?Z.mul_1_l; try (apply Q; lia); match goal with |- -1 * ?z <= 0 => assert (0 <= z) by (apply Q; lia); lia end.
Qed.
Lemma ry_coefs_bounds : forall cw, 0 <= cw -> let k := ry_coefs_of cw in
  (0 <= k1_ca k /\ 0 <= k1_cb k /\ k1_ca k + k1_cb k <= 2 ^ cw) /\ 0 <= k1_cc k <= 2 ^ cw /\ 0 <= k1_cd k <= 2 ^ cw.
Proof.
  intros cw H k. pose proof (ry_coefs_close cw H) as (A & B & C & E). fold k in A, B, C, E. unfold close in *.
  assert (P : 0 < 2 ^ cw) by (apply Z.pow_pos_nonneg; lia). set (T := 2 ^ 50) in *. assert (T = 1125899906842624) by reflexivity.
  pose proof (coef_sign cw H) as G. change (coef f_ca cw) with (k1_ca k) in G. change (coef f_cb cw) with (k1_cb k) in G.
  change (coef f_cc cw) with (k1_cc k) in G. change (coef f_cd cw) with (k1_cd k) in G. clearbody k. clearbody T. subst T. lia.
Qed.
Lemma yr_coefs_bounds : forall cw, 2 <= cw -> let k := yr_coefs_of cw in
  0 <= k2_a k <= 2 * 2 ^ (cw - 2) /\ 0 <= - k2_b k <= 2 ^ (cw - 2) /\ 0 <= - k2_c k <= 2 ^ (cw - 2) /\ 0 <= k2_d k <= 2 * 2 ^ (cw - 2).
Proof.
  intros cw H k. pose proof (yr_coefs_close cw H) as (A & B & C & E). fold k in A, B, C, E. unfold close in *.
  assert (P : 0 < 2 ^ (cw - 2)) by (apply Z.pow_pos_nonneg; lia). set (T := 2 ^ 50) in *. assert (T = 1125899906842624) by reflexivity.
  pose proof (coef_sign (cw - 2) ltac:(lia)) as G. change (coef f_a (cw - 2)) with (k2_a k) in G. change (coef f_b (cw - 2)) with (k2_b k) in G.
  change (coef f_c (cw - 2)) with (k2_c k) in G. change (coef f_d (cw - 2)) with (k2_d k) in G. clearbody k. clearbody T. subst T. lia.
Qed.
