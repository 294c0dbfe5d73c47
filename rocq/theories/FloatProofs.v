(** Lemmas about the half-float code. *)
From Coq Require Import ZArith List Bool Lia Arith.
From Verif Require Import Hdl FloatModel FloatSpec.
Import ListNotations.
Open Scope Z_scope.

(** * LeadOne *)
Lemma bits_for_bound : forall x, 0 <= x -> x < 2 ^ bits_for x.
Proof.
  intros x H. unfold bits_for. destruct (Z.leb_spec x 0); [replace x with 0 by lia; reflexivity|].
  replace (Z.log2 x + 1) with (Z.succ (Z.log2 x)) by lia. apply Z.log2_spec. lia.
Qed.

Lemma lead_fold : forall (g : nat -> Z) x (k : nat),
  fold_left (fun acc j => if Z.testbit x (Z.of_nat j) then g j else acc) (seq 0 k) 0 =
  if x mod 2 ^ Z.of_nat k =? 0 then 0 else g (Z.to_nat (Z.log2 (x mod 2 ^ Z.of_nat k))).
Proof.
  intros g x. induction k as [|k IH].
  - cbn [seq fold_left]. change (2 ^ Z.of_nat 0) with 1. rewrite Z.mod_1_r. reflexivity.
  - rewrite seq_S, fold_left_app, Nat.add_0_l. cbn [fold_left]. rewrite IH. clear IH.
    set (K := 2 ^ Z.of_nat k). assert (P : 0 < K) by (apply Z.pow_pos_nonneg; lia).
    assert (E : x mod 2 ^ Z.of_nat (S k) = x mod K + K * b2z (Z.testbit x (Z.of_nat k))).
    { replace (2 ^ Z.of_nat (S k)) with (K * 2) by (unfold K; rewrite Nat2Z.inj_succ, Z.pow_succ_r by lia; lia).
      rewrite Z.rem_mul_r by lia. f_equal. f_equal. unfold b2z.
      rewrite Z.testbit_odd, Z.shiftr_div_pow2 by lia. fold K. rewrite Zmod_odd. reflexivity. }
    rewrite E. pose proof (Z.mod_pos_bound x K P) as B.
    destruct (Z.testbit x (Z.of_nat k)); unfold b2z.
    + rewrite Z.mul_1_r. destruct (Z.eqb_spec (x mod K + K) 0); [lia|].
      f_equal. assert (L : Z.log2 (x mod K + K) = Z.of_nat k).
      { apply Z.log2_unique; [lia|]. rewrite Z.pow_succ_r by lia. fold K. lia. }
      rewrite L. lia.
    + rewrite Z.mul_0_r, Z.add_0_r. reflexivity.
Qed.

Lemma lead_one_log2 : forall dw x, 0 < x < 2 ^ Z.of_nat dw -> lead_one dw x = Z.of_nat dw - 1 - Z.log2 x.
Proof.
  intros dw x H. unfold lead_one.
  rewrite (lead_fold (fun j => trunc (bits_for (Z.of_nat dw - 1)) (Z.of_nat dw - Z.of_nat j - 1)) x dw).
  rewrite (Z.mod_small x) by lia. destruct (Z.eqb_spec x 0); [lia|].
  assert (0 <= Z.log2 x) by apply Z.log2_nonneg.
  assert (Z.log2 x < Z.of_nat dw) by (apply Z.log2_lt_pow2; lia).
  rewrite Z2Nat.id by lia. rewrite trunc_id; [lia|].
  pose proof (bits_for_bound (Z.of_nat dw - 1) ltac:(lia)). lia.
Qed.
Lemma lead_one_0 : forall dw, lead_one dw 0 = 0.
Proof.
  intros dw. unfold lead_one.
  rewrite (lead_fold (fun j => trunc (bits_for (Z.of_nat dw - 1)) (Z.of_nat dw - Z.of_nat j - 1)) 0 dw).
  rewrite Z.mod_0_l; [reflexivity|]. apply Z.pow_nonzero; lia.
Qed.

(** * Values of halves *)
Definition mant (x : Z) : Z := if x / 1024 =? 0 then x mod 1024 else 1024 + x mod 1024.
Definition expo (x : Z) : Z := Z.max 1 (x / 1024).

Lemma hval_mant : forall x, 0 <= x -> hval x = mant x * 2 ^ (expo x - 1).
Proof.
  intros x Hx. unfold hval, mant, expo. destruct (Z.eqb_spec (x / 1024) 0) as [-> | N]; [change (2 ^ (Z.max 1 0 - 1)) with 1; lia|].
  assert (0 <= x / 1024) by (apply Z.div_pos; lia). replace (Z.max 1 (x / 1024)) with (x / 1024) by lia. reflexivity.
Qed.

Lemma split1024 : forall x, x = 1024 * (x / 1024) + x mod 1024 /\ 0 <= x mod 1024 < 1024.
Proof. intros x. split; [apply Z.div_mod; lia|apply Z.mod_pos_bound; lia]. Qed.

Lemma hval_pack : forall e f, 1 <= e -> 0 <= f <= 1024 -> hval (1024 * e + f) = (1024 + f) * 2 ^ (e - 1).
Proof.
  intros e f He Hf. unfold hval. destruct (Z.eq_dec f 1024) as [-> | N].
  - replace (1024 * e + 1024) with (0 + (e + 1) * 1024) by lia. rewrite Z.div_add, Z.mod_add by lia.
    change (0 / 1024) with 0. change (0 mod 1024) with 0. destruct (Z.eqb_spec (0 + (e + 1)) 0); [lia|].
    replace (0 + (e + 1) - 1) with (Z.succ (e - 1)) by lia. rewrite Z.pow_succ_r by lia. lia.
  - replace (1024 * e + f) with (f + e * 1024) by lia. rewrite Z.div_add, Z.mod_add by lia.
    rewrite Z.div_small, Z.mod_small by lia. destruct (Z.eqb_spec (0 + e) 0); [lia|]. rewrite Z.add_0_l. reflexivity.
Qed.
Lemma hval_sub : forall f, 0 <= f <= 1024 -> hval f = f.
Proof.
  intros f Hf. unfold hval. destruct (Z.eq_dec f 1024) as [-> | N]; [reflexivity|].
  rewrite Z.div_small, Z.mod_small by lia. reflexivity.
Qed.

Lemma rounds_normal : forall e q v k, 1 <= e -> 1024 <= q < 2048 -> 0 < k ->
  q * 2 ^ (e - 1) * k <= v < (q + 1) * 2 ^ (e - 1) * k -> rounds_down (1024 * e + (q - 1024)) v k.
Proof.
  intros e q v k He Hq Hk H. unfold rounds_down.
  replace (1024 * e + (q - 1024) + 1) with (1024 * e + (q - 1023)) by lia.
  rewrite !hval_pack by lia. replace (1024 + (q - 1024)) with q by lia. replace (1024 + (q - 1023)) with (q + 1) by lia. exact H.
Qed.

Lemma fields : forall x, finite x -> f_frac x = x mod 1024 /\ f_exp x = x / 1024 /\ 0 <= x / 1024 <= 30 /\
  f_mant x = mant x /\ f_exp1 x = expo x /\ 0 <= mant x < 2048 /\ 1 <= expo x <= 30 /\ (mant x = 0 <-> x = 0) /\ (expo x = 1 \/ 1024 <= mant x).
Proof.
  intros x Hx. unfold finite in Hx.
  assert (D : 0 <= x / 1024 <= 30).
  { split; [apply Z.div_pos; lia|]. assert (x / 1024 < 31) by (apply Z.div_lt_upper_bound; lia). lia. }
  assert (F : f_frac x = x mod 1024) by (unfold f_frac, slice; rewrite Z.pow_0_r, Z.div_1_r; reflexivity).
  assert (E : f_exp x = x / 1024) by (unfold f_exp, slice; change (2 ^ 10) with 1024; apply Z.mod_small; change (2 ^ 5) with 32; lia).
  pose proof (split1024 x) as [SP M]. unfold f_mant, f_exp1, mant, expo. rewrite E, F.
  destruct (Z.eqb_spec (x / 1024) 0) as [Q | Q].
  - rewrite Q. change (trunc 5 (0 + 1)) with 1. change (Z.max 1 0) with 1. repeat split; lia.
  - replace (Z.max 1 (x / 1024)) with (x / 1024) by lia. repeat split; lia.
Qed.

(** * Multiplier *)
Definition fm_fun (x y : fpair) : Z := fm_out (fold_left fm_step [x; y; y; y; y] fm_init).

Definition st03 (z : Z) : Prop := z = 0 \/ z = 3.

(** Five enabled clocks after a pair [x] entered, the output depends on it and on the pair [y]
    that entered next, and on nothing else. *)
Lemma fm_mixed : forall s x y a b c, fm_out (fold_left fm_step [x; y; a; b; c] s) = fm_fun x y.
Proof.
  intros s x y a b c. unfold fm_fun. cbn [fold_left].
  remember (fm_step s x) as s1 eqn:S1. remember (fm_step fm_init x) as t1 eqn:T1.
  assert (E1 : fm_m1 s1 = fm_m1 t1 /\ fm_m2 s1 = fm_m2 t1 /\ fm_e1 s1 = fm_e1 t1 /\ fm_e2 s1 = fm_e2 t1 /\ fm_s1 s1 = fm_s1 t1 /\ st03 (fm_s1 t1)).
  { subst s1 t1. cbn [fm_step fm_m1 fm_m2 fm_e1 fm_e2 fm_s1]. do 5 (split; [reflexivity|]). unfold st03.
    destruct (_ && _); [auto|]. destruct (_ && _); auto. }
  clear S1 T1. destruct E1 as (A1 & A2 & A3 & A4 & A5 & A6).
  remember (fm_step s1 y) as s2 eqn:S2. remember (fm_step t1 y) as t2 eqn:T2.
  assert (E2 : fm_mult s2 = fm_mult t2 /\ fm_exp s2 = fm_exp t2 /\ fm_s2 s2 = fm_s2 t2 /\
    fm_m1 s2 = fm_m1 t2 /\ fm_m2 s2 = fm_m2 t2 /\ st03 (fm_s2 t2)).
  { subst s2 t2. cbn [fm_step fm_mult fm_exp fm_s2 fm_m1 fm_m2]. rewrite A1, A2, A3, A4, A5. do 5 (split; [reflexivity|]). exact A6. }
  clear S2 T2 A1 A2 A3 A4 A5 A6. destruct E2 as (B1 & B2 & B3 & B4 & B5 & B6).
  remember (fm_step s2 a) as s3 eqn:S3. remember (fm_step t2 y) as t3 eqn:T3.
  assert (E3 : fm_ptr s3 = fm_ptr t3 /\ fm_exp3 s3 = fm_exp3 t3 /\ fm_s3 s3 = fm_s3 t3 /\ fm_mult s3 = fm_mult t3 /\ st03 (fm_s3 t3)).
  { subst s3 t3. cbn [fm_step fm_ptr fm_exp3 fm_s3 fm_mult]. rewrite B1, B2, B3, B4, B5. do 4 (split; [reflexivity|]). exact B6. }
  clear S3 T3 B1 B2 B3 B4 B5 B6. destruct E3 as (C1 & C2 & C3 & C4 & C5).
  remember (fm_step s3 b) as s4 eqn:S4. remember (fm_step t3 y) as t4 eqn:T4.
  assert (E4 : fm_expa s4 = fm_expa t4 /\ fm_shift s4 = fm_shift t4 /\ fm_s4 s4 = fm_s4 t4 /\ st03 (fm_s4 t4)).
  { subst s4 t4. cbn [fm_step fm_expa fm_shift fm_s4]. rewrite C1, C2, C3, C4. do 3 (split; [reflexivity|]). exact C5. }
  clear S4 T4 C1 C2 C3 C4 C5. destruct E4 as (D1 & D2 & D3 & D4).
  cbn [fm_step fm_out]. rewrite D1, D2, D3. destruct D4 as [-> | ->]; reflexivity.
Qed.

(** Explicit form for finite operands. *)
Definition pexp (x : fpair) : Z := expo (f_a x) + expo (f_b x) - 15.
Definition pmul (x : fpair) : Z := mant (f_a x) * mant (f_b x).
Definition pptr (x : fpair) : Z := 21 - Z.log2 (pmul x).

Lemma fm_explicit : forall x y, finite (f_a x) -> finite (f_b x) -> finite (f_a y) -> finite (f_b y) ->
  f_a x <> 0 -> f_b x <> 0 ->
  fm_fun x y =
    if pexp x - pptr x <? 1 then slice 12 10 (trunc 22 (pmul y / 2 ^ (trunc 7 (0 - pexp x)) * 2))
    else slice 12 10 (trunc 22 (pmul y * 2 ^ (pptr x + 1))) + 1024 * trunc 5 (pexp x + 1 - pptr x).
Proof.
  intros x y FA FB GA GB NA NB.
  destruct (fields _ FA) as (Fa & Ea & Da & Ma & Xa & Ra & Ya & Za & _).
  destruct (fields _ FB) as (Fb & Eb & Db & Mb & Xb & Rb & Yb & Zb & _).
  destruct (fields _ GA) as (_ & _ & _ & Mc & Xc & Rc & Yc & _ & _).
  destruct (fields _ GB) as (_ & _ & _ & Md & Xd & Rd & Yd & _ & _).
  assert (PM : 0 < pmul x < 2 ^ 22).
  { unfold pmul. assert (mant (f_a x) <> 0) by (intros E; apply NA, Za, E). assert (mant (f_b x) <> 0) by (intros E; apply NB, Zb, E).
    change (2 ^ 22) with 4194304. nia. }
  assert (PY : 0 <= pmul y < 2 ^ 22) by (unfold pmul; change (2 ^ 22) with 4194304; nia).
  assert (LG : 0 <= Z.log2 (pmul x) < 22) by (split; [apply Z.log2_nonneg|apply Z.log2_lt_pow2; lia]).
  assert (PP : 0 <= pptr x <= 21) by (unfold pptr; lia).
  assert (PE : -13 <= pexp x <= 45) by (unfold pexp; lia).
  unfold fm_fun. cbn [fold_left].
  remember (fm_step fm_init x) as s1 eqn:S1.
  assert (E1 : fm_m1 s1 = mant (f_a x) /\ fm_m2 s1 = mant (f_b x) /\ fm_e1 s1 = expo (f_a x) /\ fm_e2 s1 = expo (f_b x) /\ fm_s1 s1 = 3).
  { subst s1. cbn [fm_step fm_m1 fm_m2 fm_e1 fm_e2 fm_s1]. rewrite Ma, Mb, Xa, Xb, Ea, Eb, Fa, Fb.
    do 4 (split; [reflexivity|]).
    pose proof (split1024 (f_a x)). pose proof (split1024 (f_b x)).
    destruct (Z.eqb_spec (f_a x / 1024) 0), (Z.eqb_spec (f_a x mod 1024) 0); cbn [andb]; try lia;
    destruct (Z.eqb_spec (f_b x / 1024) 0), (Z.eqb_spec (f_b x mod 1024) 0); cbn [andb]; try lia; reflexivity. }
  clear S1. destruct E1 as (A1 & A2 & A3 & A4 & A5).
  remember (fm_step s1 y) as s2 eqn:S2.
  assert (E2 : fm_mult s2 = pmul x /\ fm_exp s2 = pexp x /\ fm_s2 s2 = 3 /\ fm_m1 s2 = mant (f_a y) /\ fm_m2 s2 = mant (f_b y)).
  { subst s2. cbn [fm_step fm_mult fm_exp fm_s2 fm_m1 fm_m2]. rewrite A1, A2, A3, A4, A5, Mc, Md.
    split; [apply trunc_id; fold (pmul x); lia|]. split; [apply strunc_id; [lia|]; fold (pexp x); change (2 ^ (7 - 1)) with 64; lia|]. auto. }
  clear S2. destruct E2 as (B1 & B2 & B3 & B4 & B5).
  remember (fm_step s2 y) as s3 eqn:S3.
  assert (E3 : fm_ptr s3 = pptr x /\ fm_exp3 s3 = pexp x /\ fm_s3 s3 = 3 /\ fm_mult s3 = pmul y).
  { subst s3. cbn [fm_step fm_ptr fm_exp3 fm_s3 fm_mult]. rewrite B1, B2, B3, B4, B5.
    split; [|split; [reflexivity|split; [reflexivity|]]].
    - rewrite lead_one_log2 by exact PM. change (Z.of_nat 22 - 1) with 21. fold (pptr x). apply trunc_id. change (2 ^ 5) with 32. lia.
    - fold (pmul y). apply trunc_id. exact PY. }
  clear S3. destruct E3 as (C1 & C2 & C3 & C4).
  remember (fm_step s3 y) as s4 eqn:S4.
  assert (E4 : fm_s4 s4 = 3 /\
    fm_expa s4 = (if pexp x - pptr x <? 1 then 0 else strunc 7 (pexp x + 1 - pptr x)) /\
    fm_shift s4 = (if pexp x - pptr x <? 1 then trunc 22 (pmul y / 2 ^ (trunc 7 (0 - pexp x)) * 2) else trunc 22 (pmul y * 2 ^ (pptr x + 1)))).
  { subst s4. cbn [fm_step fm_expa fm_shift fm_s4]. rewrite C1, C2, C3, C4. auto. }
  clear S4. destruct E4 as (D1 & D2 & D3).
  cbn [fm_step fm_out]. rewrite D1, D2, D3. cbn [Z.eqb Pos.eqb].
  destruct (pexp x - pptr x <? 1).
  - change (slice 0 5 0) with 0. lia.
  - f_equal. f_equal. rewrite strunc_id; [|lia|change (2 ^ (7 - 1)) with 64; lia]. unfold slice, trunc. rewrite Z.pow_0_r, Z.div_1_r. reflexivity.
Qed.

Lemma fm_zero : forall x y, finite (f_a x) -> finite (f_b x) -> f_a x = 0 \/ f_b x = 0 -> fm_fun x y = 0.
Proof.
  intros x y FA FB Z0.
  destruct (fields _ FA) as (Fa & Ea & _). destruct (fields _ FB) as (Fb & Eb & _).
  unfold fm_fun. cbn [fold_left].
  remember (fm_step fm_init x) as s1 eqn:S1.
  assert (E1 : fm_s1 s1 = 0).
  { subst s1. cbn [fm_step fm_s1]. rewrite Ea, Eb, Fa, Fb. destruct Z0 as [-> | ->]; [reflexivity|].
    destruct (_ && _); reflexivity. }
  clear S1. remember (fm_step s1 y) as s2 eqn:S2. assert (E2 : fm_s2 s2 = 0) by (subst s2; exact E1). clear S2.
  remember (fm_step s2 y) as s3 eqn:S3. assert (E3 : fm_s3 s3 = 0) by (subst s3; exact E2). clear S3.
  remember (fm_step s3 y) as s4 eqn:S4. assert (E4 : fm_s4 s4 = 0) by (subst s4; exact E3). clear S4.
  cbn [fm_step fm_out]. rewrite E4. reflexivity.
Qed.

(** The product when the same pair is presented twice. *)
Lemma fm_product : forall x, finite (f_a x) -> finite (f_b x) ->
  let P := hval (f_a x) * hval (f_b x) in
  P = 0 \/ 2 ^ 35 <= P < 2 ^ 64 \/ (P < 2 ^ 34 /\ pexp x <= 0) ->
  finite (fm_fun x x) /\ rounds_down (fm_fun x x) P (2 ^ 24).
Proof.
  intros x FA FB P H.
  destruct (fields _ FA) as (_ & _ & _ & _ & _ & Ra & Ya & Za & _).
  destruct (fields _ FB) as (_ & _ & _ & _ & _ & Rb & Yb & Zb & _).
  assert (PV : P = pmul x * 2 ^ (pexp x + 13)).
  { unfold P. rewrite !hval_mant by apply FA || apply FB. unfold pmul, pexp.
    replace (expo (f_a x) + expo (f_b x) - 15 + 13) with ((expo (f_a x) - 1) + (expo (f_b x) - 1)) by lia.
    rewrite Z.pow_add_r by lia. lia. }
  destruct (Z.eq_dec (f_a x) 0) as [A0 | NA].
  { rewrite (fm_zero x x FA FB (or_introl A0)). unfold P. rewrite A0. split; [split; lia|]. unfold rounds_down. cbn. lia. }
  destruct (Z.eq_dec (f_b x) 0) as [B0 | NB].
  { rewrite (fm_zero x x FA FB (or_intror B0)). unfold P. rewrite B0. split; [split; lia|]. unfold rounds_down. rewrite Z.mul_0_r. cbn. lia. }
  assert (PM : 0 < pmul x < 2 ^ 22).
  { unfold pmul. assert (mant (f_a x) <> 0) by (intros E; apply NA, Za, E). assert (mant (f_b x) <> 0) by (intros E; apply NB, Zb, E).
    change (2 ^ 22) with 4194304. nia. }
  assert (LG : 0 <= Z.log2 (pmul x) < 22) by (split; [apply Z.log2_nonneg|apply Z.log2_lt_pow2; lia]).
  assert (PE : -13 <= pexp x <= 45) by (unfold pexp; lia).
  rewrite (fm_explicit x x FA FB FA FB NA NB).
  pose proof (Z.log2_spec (pmul x) ltac:(lia)) as LS.
  set (m := pmul x) in *. set (E := pexp x) in *. set (p := pptr x) in *.
  assert (Pp : Z.log2 m = 21 - p) by (unfold p, pptr; fold m; lia).
  assert (PR : 0 <= p <= 21) by lia. rewrite Pp in LS.
  clearbody P m E p.
  assert (M1 : 2 ^ 21 <= m * 2 ^ p < 2 ^ 22).
  { replace (2 ^ 21) with (2 ^ (21 - p) * 2 ^ p) by (rewrite <- Z.pow_add_r by lia; f_equal; lia).
    replace (2 ^ 22) with (2 ^ Z.succ (21 - p) * 2 ^ p) by (rewrite <- Z.pow_add_r by lia; f_equal; lia).
    assert (0 < 2 ^ p) by (apply Z.pow_pos_nonneg; lia). nia. }
  assert (E13 : 0 < 2 ^ (E + 13)) by (apply Z.pow_pos_nonneg; lia).
  destruct H as [P0 | [[PL PH] | [PL EN]]].
  - exfalso. rewrite PV in P0. nia.
  - (* normal result *)
    assert (EP : 1 <= E - p <= 29).
    { split.
      - destruct (Z.lt_ge_cases (E - p) 1) as [L | L]; [exfalso|exact L].
        assert (m * 2 ^ (E + 13) < 2 ^ Z.succ (21 - p) * 2 ^ (E + 13)) by nia.
        rewrite <- Z.pow_add_r in H by lia.
        assert (2 ^ (Z.succ (21 - p) + (E + 13)) <= 2 ^ 35) by (apply Z.pow_le_mono_r; lia). lia.
      - destruct (Z.lt_ge_cases (E - p) 30) as [L | L]; [lia|exfalso].
        assert (2 ^ (21 - p) * 2 ^ (E + 13) <= m * 2 ^ (E + 13)) by nia.
        rewrite <- Z.pow_add_r in H by lia.
        assert (2 ^ 64 <= 2 ^ (21 - p + (E + 13))) by (apply Z.pow_le_mono_r; lia). lia. }
    destruct (Z.ltb_spec (E - p) 1); [lia|].
    rewrite (trunc_id 5) by (change (2 ^ 5) with 32; lia).
    set (q := m * 2 ^ p / 2 ^ 11).
    assert (Q1 : q * 2 ^ 11 <= m * 2 ^ p < (q + 1) * 2 ^ 11).
    { unfold q. pose proof (Z.div_mod (m * 2 ^ p) (2 ^ 11) ltac:(lia)) as DM. pose proof (Z.mod_pos_bound (m * 2 ^ p) (2 ^ 11) ltac:(lia)). nia. }
    change (2 ^ 11) with 2048 in Q1. change (2 ^ 21) with 2097152 in M1. change (2 ^ 22) with 4194304 in M1.
    assert (QR : 1024 <= q < 2048) by lia.
    assert (SH : slice 12 10 (trunc 22 (m * 2 ^ (p + 1))) = q - 1024).
    { rewrite Z.pow_add_r by lia. change (2 ^ 1) with 2. unfold trunc. change (2 ^ 22) with 4194304.
      assert (T : (m * (2 ^ p * 2)) mod 4194304 = m * 2 ^ p * 2 - 4194304).
      { symmetry. apply (Z.mod_unique _ _ 1); lia. }
      rewrite T. unfold slice. change (2 ^ 12) with 4096. change (2 ^ 10) with 1024.
      assert (U : (m * 2 ^ p * 2 - 4194304) / 4096 = q - 1024).
      { symmetry. apply (Z.div_unique _ _ _ (m * 2 ^ p * 2 - q * 4096)); lia. }
      rewrite U. apply Z.mod_small. lia. }
    rewrite SH. replace (q - 1024 + 1024 * (E + 1 - p)) with (1024 * (E + 1 - p) + (q - 1024)) by lia.
    split; [unfold finite; lia|]. apply rounds_normal; [lia|lia|reflexivity|].
    replace (E + 1 - p - 1) with (E - p) by lia. rewrite PV.
    replace (2 ^ (E + 13)) with (2 ^ p * (2 ^ (E - p) * 2 ^ 13)) by (rewrite <- !Z.pow_add_r by lia; f_equal; lia).
    assert (0 < 2 ^ (E - p)) by (apply Z.pow_pos_nonneg; lia). change (2 ^ 13) with 8192. change (2 ^ 24) with 16777216.
    replace (m * (2 ^ p * (2 ^ (E - p) * 8192))) with ((m * 2 ^ p) * (2 ^ (E - p) * 8192)) by lia. nia.
  - (* subnormal result *)
    destruct (Z.ltb_spec (E - p) 1); [|lia].
    rewrite (trunc_id 7) by (change (2 ^ 7) with 128; lia). replace (0 - E) with (- E) by lia.
    set (d := m / 2 ^ (- E)). assert (KE : 0 < 2 ^ (- E)) by (apply Z.pow_pos_nonneg; lia).
    assert (DR : 0 <= d < 2 ^ 21).
    { unfold d. split; [apply Z.div_pos; lia|]. apply Z.div_lt_upper_bound; [exact KE|].
      assert (m * 2 ^ (E + 13) < 2 ^ (- E) * 2 ^ 21 * 2 ^ (E + 13)).
      { rewrite <- !Z.pow_add_r by lia. replace (- E + 21 + (E + 13)) with 34 by lia. lia. }
      nia. }
    change (2 ^ 21) with 2097152 in DR.
    rewrite (trunc_id 22) by (change (2 ^ 22) with 4194304; lia).
    set (r := d / 2048).
    assert (SR : slice 12 10 (d * 2) = r).
    { unfold slice. change (2 ^ 12) with (2048 * 2). rewrite Z.div_mul_cancel_r by lia. fold r. apply Z.mod_small.
      split; [apply Z.div_pos; lia|apply Z.div_lt_upper_bound; lia]. }
    rewrite SR. assert (RR : 0 <= r < 1024) by (unfold r; split; [apply Z.div_pos; lia|apply Z.div_lt_upper_bound; lia]).
    split; [unfold finite; lia|]. unfold rounds_down. rewrite !hval_sub by lia. rewrite PV.
    assert (RD : r * (2 ^ (- E) * 2048) <= m < (r + 1) * (2 ^ (- E) * 2048)).
    { unfold r, d. rewrite Z.div_div by lia. set (K := 2 ^ (- E) * 2048). assert (KP : 0 < K) by (unfold K; lia).
      pose proof (Z.div_mod m K ltac:(lia)) as DM. pose proof (Z.mod_pos_bound m K KP). nia. }
    assert (K24 : 2 ^ 24 = 2 ^ (- E) * 2048 * 2 ^ (E + 13)).
    { change 2048 with (2 ^ 11). rewrite <- !Z.pow_add_r by lia. f_equal. lia. }
    rewrite K24. nia.
Qed.

(** * Adder *)
Definition fa_fun (x : fpair) : Z := fa_out (fold_left fa_step [x; x; x; x; x] fa_init).
Lemma fa_pure : forall s x a b c d, fa_out (fold_left fa_step [x; a; b; c; d] s) = fa_fun x.
Proof.
  intros s x a b c d. unfold fa_fun. cbn [fold_left].
  remember (fa_step s x) as s1 eqn:S1. remember (fa_step fa_init x) as t1 eqn:T1.
  assert (E1 : fa_d s1 = fa_d t1 /\ fa_f1 s1 = fa_f1 t1 /\ fa_f2 s1 = fa_f2 t1 /\ fa_e1 s1 = fa_e1 t1 /\ fa_e2 s1 = fa_e2 t1).
  { subst s1 t1. cbn [fa_step fa_d fa_f1 fa_f2 fa_e1 fa_e2]. auto. }
  clear S1 T1. destruct E1 as (A1 & A2 & A3 & A4 & A5).
  remember (fa_step s1 a) as s2 eqn:S2. remember (fa_step t1 x) as t2 eqn:T2.
  assert (E2 : fa_g1 s2 = fa_g1 t2 /\ fa_g2 s2 = fa_g2 t2 /\ fa_e s2 = fa_e t2).
  { subst s2 t2. cbn [fa_step fa_g1 fa_g2 fa_e]. rewrite A1, A2, A3, A4, A5. auto. }
  clear S2 T2 A1 A2 A3 A4 A5. destruct E2 as (B1 & B2 & B3).
  remember (fa_step s2 b) as s3 eqn:S3. remember (fa_step t2 x) as t3 eqn:T3.
  assert (E3 : fa_sum s3 = fa_sum t3 /\ fa_sgn s3 = fa_sgn t3 /\ fa_e3 s3 = fa_e3 t3).
  { subst s3 t3. cbn [fa_step fa_sum fa_sgn fa_e3]. rewrite B1, B2, B3. auto. }
  clear S3 T3 B1 B2 B3. destruct E3 as (C1 & C2 & C3).
  remember (fa_step s3 c) as s4 eqn:S4. remember (fa_step t3 x) as t4 eqn:T4.
  assert (E4 : fa_frac s4 = fa_frac t4 /\ fa_exp s4 = fa_exp t4 /\ fa_sgn4 s4 = fa_sgn4 t4).
  { subst s4 t4. cbn [fa_step fa_frac fa_exp fa_sgn4]. rewrite C1, C2, C3. auto. }
  clear S4 T4 C1 C2 C3. destruct E4 as (D1 & D2 & D3).
  cbn [fa_step fa_out]. rewrite D1, D2, D3. reflexivity.
Qed.

(** Stages 3 to 5 on aligned mantissas whose sum has its leading one in bit 10 or 11. *)
Lemma fa_explicit : forall x, finite (f_a x) -> finite (f_b x) ->
  let d := expo (f_a x) - f_b x / 1024 in
  let g1 := if d <? 0 then mant (f_a x) / 2 ^ (- d) else mant (f_a x) in
  let g2 := if d <? 0 then mant (f_b x) else mant (f_b x) / 2 ^ d in
  let e := if d <? 0 then expo (f_b x) else expo (f_a x) in
  fa_fun x = slice 1 10 (trunc 12 ((g1 + g2) * 2 ^ (trunc 4 (lead_one 12 (g1 + g2))))) +
    1024 * trunc 5 (e - trunc 4 (lead_one 12 (g1 + g2)) + 1) /\ 0 <= g1 < 2048 /\ 0 <= g2 < 2048.
Proof.
  intros x FA FB d g1 g2 e.
  destruct (fields _ FA) as (Fa & Ea & Da & Ma & Xa & Ra & Ya & Za & _).
  destruct (fields _ FB) as (Fb & Eb & Db & Mb & Xb & Rb & Yb & Zb & _).
  assert (DR : -29 <= d <= 30) by (unfold d; lia).
  assert (G1 : 0 <= g1 < 2048).
  { unfold g1. destruct (Z.ltb_spec d 0); [|exact Ra]. assert (0 < 2 ^ (- d)) by (apply Z.pow_pos_nonneg; lia).
    split; [apply Z.div_pos; lia|]. apply Z.div_lt_upper_bound; nia. }
  assert (G2 : 0 <= g2 < 2048).
  { unfold g2. destruct (Z.ltb_spec d 0); [exact Rb|]. assert (0 < 2 ^ d) by (apply Z.pow_pos_nonneg; lia).
    split; [apply Z.div_pos; lia|]. apply Z.div_lt_upper_bound; nia. }
  split; [|split; assumption].
  unfold fa_fun. cbn [fold_left].
  remember (fa_step fa_init x) as s1 eqn:S1.
  assert (E1 : fa_d s1 = d /\ fa_f1 s1 = mant (f_a x) /\ fa_f2 s1 = mant (f_b x) /\ fa_e1 s1 = expo (f_a x) /\ fa_e2 s1 = expo (f_b x)).
  { subst s1. cbn [fa_step fa_d fa_f1 fa_f2 fa_e1 fa_e2]. rewrite Ma, Mb, Xa, Xb, Eb. split; [|auto].
    fold d. apply strunc_id; [lia|]. change (2 ^ (6 - 1)) with 32. lia. }
  clear S1. destruct E1 as (A1 & A2 & A3 & A4 & A5).
  remember (fa_step s1 x) as s2 eqn:S2.
  assert (E2 : fa_g1 s2 = g1 /\ fa_g2 s2 = g2 /\ fa_e s2 = e).
  { subst s2. cbn [fa_step fa_g1 fa_g2 fa_e]. rewrite A1, A2, A3, A4, A5. auto. }
  clear S2 A1 A2 A3 A4 A5. destruct E2 as (B1 & B2 & B3). clearbody g1 g2 e.
  remember (fa_step s2 x) as s3 eqn:S3.
  assert (E3 : fa_sum s3 = g1 + g2 /\ fa_sgn s3 = 0 /\ fa_e3 s3 = e).
  { subst s3. cbn [fa_step fa_sum fa_sgn fa_e3]. rewrite B1, B2, B3. split; [|split; [|reflexivity]]; unfold slice.
    - rewrite Z.pow_0_r, Z.div_1_r. apply Z.mod_small. change (2 ^ 12) with 4096. lia.
    - change (2 ^ 12) with 4096. rewrite (Z.div_small (g1 + g2)) by lia. reflexivity. }
  clear S3 B1 B2 B3. destruct E3 as (C1 & C2 & C3).
  remember (fa_step s3 x) as s4 eqn:S4.
  assert (E4 : fa_frac s4 = trunc 12 ((g1 + g2) * 2 ^ (trunc 4 (lead_one 12 (g1 + g2)))) /\
    fa_exp s4 = trunc 5 (e - trunc 4 (lead_one 12 (g1 + g2)) + 1) /\ fa_sgn4 s4 = 0).
  { subst s4. cbn [fa_step fa_frac fa_exp fa_sgn4]. rewrite C1, C2, C3. auto. }
  clear S4 C1 C2 C3. destruct E4 as (D1 & D2 & D3).
  cbn [fa_step fa_out]. rewrite D1, D2, D3. lia.
Qed.

Lemma fa_finish : forall e S X, 1 <= e <= 30 -> 1024 <= S < 4096 ->
  S * 2 ^ (e - 1) <= X < (S + 1) * 2 ^ (e - 1) -> X < 2 ^ 40 ->
  let r := slice 1 10 (trunc 12 (S * 2 ^ (trunc 4 (lead_one 12 S)))) + 1024 * trunc 5 (e - trunc 4 (lead_one 12 S) + 1) in
  finite r /\ rounds_down r X 1.
Proof.
  intros e S X He HS HX HM r.
  assert (K : 0 < 2 ^ (e - 1)) by (apply Z.pow_pos_nonneg; lia).
  destruct (Z.lt_ge_cases S 2048) as [L | L].
  - assert (LO : lead_one 12 S = 1).
    { rewrite lead_one_log2 by (change (2 ^ Z.of_nat 12) with 4096; lia). rewrite (Z.log2_unique S 10); [reflexivity|lia|]. change (2 ^ 10) with 1024. change (2 ^ Z.succ 10) with 2048. lia. }
    unfold r. rewrite LO. change (trunc 4 1) with 1. change (2 ^ 1) with 2. rewrite (trunc_id 12) by (change (2 ^ 12) with 4096; lia).
    replace (e - 1 + 1) with e by lia. rewrite (trunc_id 5) by (change (2 ^ 5) with 32; lia).
    assert (SL : slice 1 10 (S * 2) = S - 1024).
    { unfold slice. change (2 ^ 1) with 2. rewrite Z.div_mul by lia. change (2 ^ 10) with 1024. symmetry. apply (Z.mod_unique _ _ 1); lia. }
    rewrite SL. replace (S - 1024 + 1024 * e) with (1024 * e + (S - 1024)) by lia.
    split; [unfold finite; lia|]. apply rounds_normal; lia.
  - assert (LO : lead_one 12 S = 0).
    { rewrite lead_one_log2 by (change (2 ^ Z.of_nat 12) with 4096; lia). rewrite (Z.log2_unique S 11); [reflexivity|lia|]. change (2 ^ 11) with 2048. change (2 ^ Z.succ 11) with 4096. lia. }
    assert (E29 : e <= 29).
    { destruct (Z.le_gt_cases e 29) as [Q | Q]; [exact Q|exfalso]. replace e with 30 in * by lia. change (2 ^ (30 - 1)) with 536870912 in *. change (2 ^ 40) with 1099511627776 in HM. lia. }
    unfold r. rewrite LO. change (trunc 4 0) with 0. change (2 ^ 0) with 1. rewrite Z.mul_1_r, (trunc_id 12) by (change (2 ^ 12) with 4096; lia).
    replace (e - 0 + 1) with (e + 1) by lia. rewrite (trunc_id 5) by (change (2 ^ 5) with 32; lia).
    pose proof (Z.div_mod S 2 ltac:(lia)) as DM. pose proof (Z.mod_pos_bound S 2 ltac:(lia)) as MB. set (q := S / 2) in *.
    assert (SL : slice 1 10 S = q - 1024).
    { unfold slice. change (2 ^ 1) with 2. fold q. change (2 ^ 10) with 1024. symmetry. apply (Z.mod_unique _ _ 1); lia. }
    rewrite SL. replace (q - 1024 + 1024 * (e + 1)) with (1024 * (e + 1) + (q - 1024)) by lia.
    split; [unfold finite; lia|]. apply rounds_normal; [lia|lia|lia|].
    replace (e + 1 - 1) with (Z.succ (e - 1)) by lia. rewrite Z.pow_succ_r by lia. nia.
Qed.

Lemma floor_align : forall m d e, 0 <= d -> 1 <= e -> 0 <= m ->
  (m / 2 ^ d) * 2 ^ (e + d - 1) <= m * 2 ^ (e - 1) < (m / 2 ^ d) * 2 ^ (e + d - 1) + 2 ^ (e + d - 1).
Proof.
  intros m d e Hd He Hm. assert (K : 0 < 2 ^ d) by (apply Z.pow_pos_nonneg; lia).
  pose proof (Z.div_mod m (2 ^ d) ltac:(lia)) as DM. pose proof (Z.mod_pos_bound m (2 ^ d) K) as MB.
  replace (2 ^ (e + d - 1)) with (2 ^ d * 2 ^ (e - 1)) by (rewrite <- Z.pow_add_r by lia; f_equal; lia).
  assert (0 < 2 ^ (e - 1)) by (apply Z.pow_pos_nonneg; lia). set (q := m / 2 ^ d) in *. set (t := m mod 2 ^ d) in *. nia.
Qed.

Lemma fa_sum_ok : forall x, finite (f_a x) -> finite (f_b x) ->
  1024 <= f_b x \/ (1024 <= f_a x /\ f_b x = 0) ->
  hval (f_a x) + hval (f_b x) < 2 ^ 40 ->
  finite (fa_fun x) /\ rounds_down (fa_fun x) (hval (f_a x) + hval (f_b x)) 1.
Proof.
  intros x FA FB C HX.
  destruct (fields _ FA) as (_ & _ & Da & _ & _ & Ra & Ya & _ & Na).
  destruct (fields _ FB) as (_ & _ & Db & _ & _ & Rb & Yb & _ & Nb).
  destruct (fa_explicit x FA FB) as (FE & G1 & G2). cbv zeta in FE, G1, G2. rewrite FE. clear FE.
  rewrite (hval_mant (f_a x)) in * by apply FA. rewrite (hval_mant (f_b x)) in * by apply FB.
  destruct C as [NB | [NA B0]].
  - assert (E2 : f_b x / 1024 = expo (f_b x) /\ 1024 <= mant (f_b x)).
    { unfold expo, mant. assert (1 <= f_b x / 1024) by (apply Z.div_le_lower_bound; lia).
      destruct (Z.eqb_spec (f_b x / 1024) 0); [lia|]. pose proof (split1024 (f_b x)). lia. }
    destruct E2 as [E2 M2]. rewrite E2 in *.
    set (e1 := expo (f_a x)) in *. set (e2 := expo (f_b x)) in *. set (m1 := mant (f_a x)) in *. set (m2 := mant (f_b x)) in *.
    clearbody e1 e2 m1 m2. destruct (Z.ltb_spec (e1 - e2) 0) as [D | D].
    + apply fa_finish; [lia|lia| |exact HX].
      pose proof (floor_align m1 (e2 - e1) e1 ltac:(lia) ltac:(lia) ltac:(lia)) as FL.
      replace (- (e1 - e2)) with (e2 - e1) by lia. replace (e1 + (e2 - e1) - 1) with (e2 - 1) in FL by lia. lia.
    + assert (M1 : 1024 <= m1 + m2 / 2 ^ (e1 - e2)).
      { destruct Na as [Q | Q]; [|lia]. replace (e1 - e2) with 0 by lia. rewrite Z.pow_0_r, Z.div_1_r. lia. }
      apply fa_finish; [lia|lia| |exact HX].
      pose proof (floor_align m2 (e1 - e2) e2 ltac:(lia) ltac:(lia) ltac:(lia)) as FL.
      replace (e2 + (e1 - e2) - 1) with (e1 - 1) in FL by lia. lia.
  - assert (M2 : mant (f_b x) = 0) by (rewrite B0; reflexivity).
    assert (M1 : 1024 <= mant (f_a x)).
    { unfold mant. assert (1 <= f_a x / 1024) by (apply Z.div_le_lower_bound; lia).
      destruct (Z.eqb_spec (f_a x / 1024) 0); [lia|]. pose proof (split1024 (f_a x)). lia. }
    rewrite M2 in *. rewrite B0 in *. change (0 / 1024) with 0 in *. rewrite Z.sub_0_r in *.
    destruct (Z.ltb_spec (expo (f_a x)) 0); [lia|]. rewrite (Z.div_0_l (2 ^ expo (f_a x))) in * by (apply Z.pow_nonzero; lia).
    rewrite Z.mul_0_l, !Z.add_0_r in *. apply fa_finish; [lia|lia| |exact HX].
    assert (0 < 2 ^ (expo (f_a x) - 1)) by (apply Z.pow_pos_nonneg; lia). lia.
Qed.

(** The remaining products below 2^-13, exactly. *)
Lemma fm_small : forall x, finite (f_a x) -> finite (f_b x) -> f_a x <> 0 -> f_b x <> 0 ->
  let P := hval (f_a x) * hval (f_b x) in P < 2 ^ 35 ->
  (pexp x <= 0 -> 2 ^ 34 <= P -> fm_fun x x = P / 2 ^ 24 - 1024 /\ 1024 <= P / 2 ^ 24 < 2048) /\
  (0 < pexp x -> fm_fun x x = 0 /\ 2 ^ 24 <= P).
Proof.
  intros x FA FB NA NB P PH.
  destruct (fields _ FA) as (_ & _ & _ & _ & _ & Ra & Ya & Za & _).
  destruct (fields _ FB) as (_ & _ & _ & _ & _ & Rb & Yb & Zb & _).
  assert (PV : P = pmul x * 2 ^ (pexp x + 13)).
  { unfold P. rewrite !hval_mant by apply FA || apply FB. unfold pmul, pexp.
    replace (expo (f_a x) + expo (f_b x) - 15 + 13) with ((expo (f_a x) - 1) + (expo (f_b x) - 1)) by lia.
    rewrite Z.pow_add_r by lia. lia. }
  assert (MA : mant (f_a x) <> 0) by (intros E; apply NA, Za, E). assert (MB : mant (f_b x) <> 0) by (intros E; apply NB, Zb, E).
  assert (PM : 0 < pmul x < 2 ^ 22) by (unfold pmul; change (2 ^ 22) with 4194304; nia).
  assert (LG : 0 <= Z.log2 (pmul x) < 22) by (split; [apply Z.log2_nonneg|apply Z.log2_lt_pow2; lia]).
  assert (PE : -13 <= pexp x <= 45) by (unfold pexp; lia).
  assert (BIG : 0 < pexp x -> 1024 <= pmul x).
  { intros H. unfold pexp in H. assert (G : forall y, finite y -> 2 <= expo y -> 1024 <= mant y).
    { intros y _ He. unfold expo in He. unfold mant. pose proof (Z.mod_pos_bound y 1024 ltac:(lia)). destruct (Z.eqb_spec (y / 1024) 0); lia. }
    unfold pmul. destruct (Z.lt_ge_cases (expo (f_a x)) 2).
    - pose proof (G _ FB ltac:(lia)). nia.
    - pose proof (G _ FA ltac:(lia)). nia. }
  rewrite (fm_explicit x x FA FB FA FB NA NB).
  pose proof (Z.log2_spec (pmul x) ltac:(lia)) as LS.
  set (m := pmul x) in *. set (E := pexp x) in *. set (p := pptr x) in *.
  assert (Pp : Z.log2 m = 21 - p) by (unfold p, pptr; fold m; lia).
  assert (PR : 0 <= p <= 21) by lia. rewrite Pp in LS.
  clearbody P m E p.
  assert (E13 : 0 < 2 ^ (E + 13)) by (apply Z.pow_pos_nonneg; lia).
  assert (EP : E - p < 1).
  { destruct (Z.lt_ge_cases (E - p) 1) as [L | L]; [exact L|exfalso].
    assert (2 ^ (21 - p) * 2 ^ (E + 13) <= m * 2 ^ (E + 13)) by nia.
    rewrite <- Z.pow_add_r in H by lia.
    assert (2 ^ 35 <= 2 ^ (21 - p + (E + 13))) by (apply Z.pow_le_mono_r; lia). lia. }
  destruct (Z.ltb_spec (E - p) 1); [clear H|lia]. split.
  - intros EN PL. rewrite (trunc_id 7) by (change (2 ^ 7) with 128; lia).
    set (q := m / 2 ^ (0 - E)).
    assert (PQ : P / 2 ^ 24 = q / 2 ^ 11).
    { unfold q. rewrite Z.div_div by (try apply Z.pow_pos_nonneg; lia || (apply Z.pow_nonzero; lia)).
      rewrite <- Z.pow_add_r by lia. rewrite PV. replace (2 ^ 24) with (2 ^ (0 - E + 11) * 2 ^ (E + 13)) by (rewrite <- Z.pow_add_r by lia; f_equal; lia).
      apply Z.div_mul_cancel_r; [apply Z.pow_nonzero; lia|lia]. }
    assert (PB : 1024 <= P / 2 ^ 24 < 2048).
    { split; [apply Z.div_le_lower_bound; [lia|]; change (2 ^ 24 * 1024) with (2 ^ 34); exact PL|].
      apply Z.div_lt_upper_bound; [lia|]. change (2 ^ 24 * 2048) with (2 ^ 35). exact PH. }
    split; [|exact PB]. rewrite PQ in *. change (2 ^ 11) with 2048 in *. clearbody q.
    assert (QB : 2097152 <= q < 4194304).
    { pose proof (Z.div_mod q 2048 ltac:(lia)). pose proof (Z.mod_pos_bound q 2048 ltac:(lia)). lia. }
    unfold trunc, slice. change (2 ^ 22) with 4194304. change (2 ^ 12) with 4096. change (2 ^ 10) with 1024.
    assert (T : (q * 2) mod 4194304 = q * 2 - 4194304) by (symmetry; apply (Z.mod_unique _ _ 1); lia).
    rewrite T. assert (U : (q * 2 - 4194304) / 4096 = q / 2048 - 1024).
    { replace (q * 2 - 4194304) with ((q - 1024 * 2048) * 2) by lia. change 4096 with (2048 * 2).
      rewrite Z.div_mul_cancel_r by lia. replace (q - 1024 * 2048) with (q + (-1024) * 2048) by lia. rewrite Z.div_add by lia. lia. }
    rewrite U. apply Z.mod_small. lia.
  - intros EN. specialize (BIG EN). split.
    + assert (T : trunc 7 (0 - E) = 128 - E) by (unfold trunc; change (2 ^ 7) with 128; symmetry; apply (Z.mod_unique _ _ (-1)); lia).
      rewrite T. rewrite (Z.div_small m); [reflexivity|]. split; [lia|]. apply Z.lt_le_trans with (2 ^ 22); [lia|]. apply Z.pow_le_mono_r; lia.
    + rewrite PV. assert (2 ^ 14 <= 2 ^ (E + 13)) by (apply Z.pow_le_mono_r; lia). change (2 ^ 24) with 16777216. change (2 ^ 14) with 16384 in *. nia.
Qed.

(** A subnormal second operand is shifted one place too far: it counts half. *)
Definition fa_tail (e S : Z) : Z := slice 1 10 (trunc 12 (S * 2 ^ (trunc 4 (lead_one 12 S)))) + 1024 * trunc 5 (e - trunc 4 (lead_one 12 S) + 1).
Lemma fa_second_subnormal : forall x, finite (f_a x) -> 0 <= f_b x < 1024 ->
  (1024 <= f_a x \/ 1024 <= f_a x + f_b x / 2 -> hval (f_a x) + f_b x / 2 < 2 ^ 40 ->
   finite (fa_fun x) /\ rounds_down (fa_fun x) (hval (f_a x) + f_b x / 2) 1) /\
  (f_a x + f_b x / 2 < 1024 -> ~ (finite (fa_fun x) /\ rounds_down (fa_fun x) (hval (f_a x) + hval (f_b x)) 1)).
Proof.
  intros x FA RB. assert (FB : finite (f_b x)) by (unfold finite; lia).
  destruct (fields _ FA) as (_ & _ & Da & _ & _ & Ra & Ya & _ & Na).
  destruct (fa_explicit x FA FB) as (FE & G1 & G2). cbv zeta in FE, G1, G2.
  rewrite (Z.div_small (f_b x)) in * by lia. rewrite Z.sub_0_r in *.
  assert (MB : mant (f_b x) = f_b x) by (unfold mant; rewrite Z.div_small by lia; cbn [Z.eqb]; apply Z.mod_small; lia). rewrite MB in *.
  destruct (Z.ltb_spec (expo (f_a x)) 0) as [N|N]; [lia|]. fold (fa_tail (expo (f_a x)) (mant (f_a x) + f_b x / 2 ^ expo (f_a x))) in FE.
  assert (K : 0 < 2 ^ (expo (f_a x) - 1)) by (apply Z.pow_pos_nonneg; lia).
  assert (E1 : f_a x < 1024 -> expo (f_a x) = 1 /\ mant (f_a x) = f_a x /\ hval (f_a x) = f_a x).
  { intros H. assert (0 <= f_a x) by (unfold finite in FA; lia). unfold expo, mant, hval. cbv zeta. rewrite Z.div_small by lia. cbn [Z.eqb]. rewrite Z.mod_small by lia. auto. }
  split.
  - intros C HX. rewrite FE. unfold fa_tail. rewrite (hval_mant (f_a x)) in * by apply FA.
    assert (SB : 1024 <= mant (f_a x) + f_b x / 2 ^ expo (f_a x)).
    { destruct (Z.lt_ge_cases (f_a x) 1024) as [L|L].
      - destruct (E1 L) as (-> & -> & _). change (2 ^ 1) with 2. lia.
      - assert (1024 <= mant (f_a x)); [|lia]. unfold mant. assert (1 <= f_a x / 1024) by (apply Z.div_le_lower_bound; lia).
        destruct (Z.eqb_spec (f_a x / 1024) 0); [lia|]. pose proof (split1024 (f_a x)). lia. }
    apply fa_finish; [lia|lia| |exact HX].
    assert (P2 : 2 ^ expo (f_a x) = 2 * 2 ^ (expo (f_a x) - 1)) by (rewrite <- Z.pow_succ_r by lia; f_equal; lia).
    rewrite P2 in *. rewrite <- Z.div_div by lia. set (h := f_b x / 2) in *. set (P := 2 ^ (expo (f_a x) - 1)) in *.
    pose proof (Z.div_mod h P ltac:(lia)) as DM. pose proof (Z.mod_pos_bound h P K) as MP. set (q := h / P) in *. nia.
  - intros L [_ RD]. assert (0 <= f_b x / 2) by (apply Z.div_pos; lia). destruct (E1 ltac:(lia)) as (X1 & X2 & X3). rewrite FE, X1, X2, X3 in RD. clear FE.
    assert (HB : hval (f_b x) = f_b x) by (unfold hval; cbv zeta; rewrite Z.div_small by lia; cbn [Z.eqb]; apply Z.mod_small; lia). rewrite HB in RD.
    change (2 ^ 1) with 2 in RD. unfold finite in FA. pose proof (Z.div_mod (f_b x) 2 ltac:(lia)) as DM. pose proof (Z.mod_pos_bound (f_b x) 2 ltac:(lia)) as MP.
    set (S := f_a x + f_b x / 2) in *. assert (SR : 0 <= S < 0 + Z.of_nat 1024) by lia.
    assert (A : forallb (fun s => (2 * s + 1 <? hval (fa_tail 1 s)) || (hval (fa_tail 1 s + 1) <=? s)) (zrange 0 1024) = true) by (vm_compute; reflexivity).
    pose proof (forallb_zrange _ _ _ A S SR) as B. cbv beta in B. unfold rounds_down in RD. rewrite !Z.mul_1_r in RD.
    apply orb_prop in B as [B|B]; [apply Z.ltb_lt in B|apply Z.leb_le in B]; lia.
Qed.

(** * Pixel converters *)
Definition fp_fun (x : Z) : Z := fp_pix (fold_left fp_step [x; x] fp_init).
Lemma fp_pure : forall s x y, fp_pix (fold_left fp_step [x; y] s) = fp_fun x.
Proof. reflexivity. Qed.
Definition px_fun (x : Z) : Z := px_out (fold_left px_step [x; x] px_init).
Lemma px_pure : forall s x y, px_out (fold_left px_step [x; y] s) = px_fun x.
Proof. reflexivity. Qed.
Definition lu_fun (p : Z) : Z := lu_out (lu_step {| lu_out := 0 |} p).
Lemma lu_pure : forall s p, 0 <= p < 256 -> lu_out (lu_step s p) = nth (Z.to_nat p) pix_lut 0.
Proof.
  intros [s] p Hp. unfold lu_step. cbn [lu_out].
  assert (G : forall (g : nat -> Z) k a, fold_left (fun acc j => if p =? Z.of_nat j then g j else acc) (seq 0 k) a =
    if p <? Z.of_nat k then g (Z.to_nat p) else a).
  { intros g. induction k as [|k IH]; intros a; [cbn [seq fold_left]; destruct (Z.ltb_spec p (Z.of_nat 0)); [lia|reflexivity]|].
    rewrite seq_S, fold_left_app, Nat.add_0_l. cbn [fold_left]. rewrite IH.
    destruct (Z.eqb_spec p (Z.of_nat k)) as [-> | N].
    - rewrite Nat2Z.id. destruct (Z.ltb_spec (Z.of_nat k) (Z.of_nat (S k))); [reflexivity|lia].
    - destruct (Z.ltb_spec p (Z.of_nat k)), (Z.ltb_spec p (Z.of_nat (S k))); lia || reflexivity. }
  rewrite (G (fun j => nth j pix_lut 0)). destruct (Z.ltb_spec p (Z.of_nat 256)); [reflexivity|lia].
Qed.

(** 256 * value, rounded down, for halves below 1. *)
Lemma fp_floor : forall x, 0 <= x < 15360 -> fp_fun x = hval x / 2 ^ 16.
Proof.
  intros x Hx. assert (F : finite x) by (unfold finite; lia).
  destruct (fields x F) as (Fx & Ex & _ & _ & _ & _ & _). unfold f_frac, f_exp in *.
  assert (D : 0 <= x / 1024 <= 14).
  { split; [apply Z.div_pos; lia|]. assert (x / 1024 < 15) by (apply Z.div_lt_upper_bound; lia). lia. }
  pose proof (split1024 x) as [_ M].
  unfold fp_fun. cbn [fold_left fp_step fp_pix fp_frac fp_off]. rewrite Fx, Ex.
  rewrite (trunc_id 5) by (change (2 ^ 5) with 32; lia). unfold slice. change (2 ^ 3) with 8. change (2 ^ 8) with 256.
  set (e := x / 1024) in *. set (f := x mod 1024) in *.
  rewrite Z.div_div by (try apply Z.pow_nonzero; lia).
  replace (2 ^ (15 - e - 1) * 8) with (2 ^ (17 - e)) by (change 8 with (2 ^ 3); rewrite <- Z.pow_add_r by lia; f_equal; lia).
  assert (K : 2 ^ 3 <= 2 ^ (17 - e)) by (apply Z.pow_le_mono_r; lia). change (2 ^ 3) with 8 in K.
  rewrite Z.mod_small.
  - unfold hval. fold e. fold f. destruct (Z.eqb_spec e 0) as [-> | N].
    + rewrite !Z.div_small; [reflexivity| |]; [change (2 ^ 16) with 65536|change (2 ^ (17 - 0)) with 131072]; lia.
    + replace (2 ^ 16) with (2 ^ (17 - e) * 2 ^ (e - 1)) by (rewrite <- Z.pow_add_r by lia; f_equal; lia).
      rewrite Z.div_mul_cancel_r by (apply Z.pow_nonzero; lia). f_equal. lia.
  - split; [apply Z.div_pos; lia|apply Z.div_lt_upper_bound; lia].
Qed.
