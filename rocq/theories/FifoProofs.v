(** Lemmas for the asynchronous FIFO. *)
From Coq Require Import ZArith List Bool Lia Arith.
From Verif Require Import Hdl Trace CdcProofs FifoModel.
Import ListNotations.
Open Scope Z_scope.

(** * Gray code *)
Lemma gray_shift : forall x, gray x = Z.lxor x (Z.shiftr x 1).
Proof. intros. unfold gray. rewrite Z.shiftr_div_pow2 by lia. reflexivity. Qed.

Lemma gray_lxor : forall x y, gray (Z.lxor x y) = Z.lxor (gray x) (gray y).
Proof.
  intros. rewrite !gray_shift, Z.shiftr_lxor. rewrite !Z.lxor_assoc. f_equal.
  rewrite <- !Z.lxor_assoc. f_equal. apply Z.lxor_comm.
Qed.

Lemma lxor_bound : forall m a b, 0 <= m -> 0 <= a < 2 ^ m -> 0 <= b < 2 ^ m -> 0 <= Z.lxor a b < 2 ^ m.
Proof.
  intros m a b M Ha Hb. split; [apply Z.lxor_nonneg; lia|].
  destruct (Z.eq_dec (Z.lxor a b) 0) as [->|N]; [apply Z.pow_pos_nonneg; lia|].
  assert (0 <= Z.lxor a b) by (apply Z.lxor_nonneg; lia).
  assert (MP : 0 < m). { destruct (Z.eq_dec m 0) as [->|]; [|lia]. replace a with 0 in N by lia. replace b with 0 in N by lia. cbn in N. lia. }
  apply Z.log2_lt_pow2; [lia|]. pose proof (Z.log2_lxor a b ltac:(lia) ltac:(lia)) as L.
  assert (G : forall x, 0 <= x < 2 ^ m -> Z.log2 x < m).
  { intros x X. destruct (Z.eq_dec x 0) as [->|]; [cbn; lia|]. apply Z.log2_lt_pow2; lia. }
  pose proof (G a Ha); pose proof (G b Hb). lia.
Qed.

Lemma gray_bound : forall m x, 0 <= m -> 0 <= x < 2 ^ m -> 0 <= gray x < 2 ^ m.
Proof.
  intros m x M H. unfold gray. apply lxor_bound; [lia|lia|].
  split; [apply Z.div_pos; lia|]. pose proof (Z.div_le_upper_bound x 2 x ltac:(lia) ltac:(lia)). lia.
Qed.

Lemma gray_inj : forall x y, 0 <= x -> 0 <= y -> gray x = gray y -> x = y.
Proof.
  intros x y X Y E. apply Z.lxor_eq. assert (N : 0 <= Z.lxor x y) by (apply Z.lxor_nonneg; lia).
  assert (G : gray (Z.lxor x y) = 0) by (rewrite gray_lxor, E; apply Z.lxor_nilpotent).
  unfold gray in G. apply Z.lxor_eq in G. pose proof (Z.div_mod (Z.lxor x y) 2 ltac:(lia)).
  pose proof (Z.mod_pos_bound (Z.lxor x y) 2 ltac:(lia)). lia.
Qed.

Lemma lxor_pow2 : forall m y, 0 <= m -> 0 <= y < 2 ^ m -> Z.lxor y (2 ^ m) = y + 2 ^ m.
Proof.
  intros m y M H. symmetry. apply Z.add_nocarry_lxor. apply Z.bits_inj'. intros k K.
  rewrite Z.land_spec, Z.bits_0, Z.pow2_bits_eqb by lia. destruct (Z.eqb_spec m k) as [<-|]; [|apply andb_false_r].
  rewrite andb_true_r. destruct (Z.eq_dec y 0) as [->|]; [apply Z.bits_0|]. apply Z.bits_above_log2; [lia|]. apply Z.log2_lt_pow2; lia.
Qed.

Lemma lxor_flip : forall m x y, 0 <= m -> 0 <= x < 2 ^ (m + 1) -> 0 <= y < 2 ^ (m + 1) ->
  (Z.lxor x y = 2 ^ m <-> x = y + 2 ^ m \/ y = x + 2 ^ m).
Proof.
  intros m x y M X Y. rewrite Z.pow_add_r in X, Y by lia. change (2 ^ 1) with 2 in X, Y.
  assert (SW : forall a b, Z.lxor a b = 2 ^ m -> a = Z.lxor b (2 ^ m)).
  { intros a b <-. rewrite (Z.lxor_comm a b), <- Z.lxor_assoc, Z.lxor_nilpotent. reflexivity. }
  split.
  - intros E. apply SW in E. destruct (Z.lt_ge_cases y (2 ^ m)).
    + rewrite lxor_pow2 in E by lia. lia.
    + right. replace y with (Z.lxor (y - 2 ^ m) (2 ^ m)) in E by (rewrite lxor_pow2 by lia; lia).
      rewrite Z.lxor_assoc, Z.lxor_nilpotent, Z.lxor_0_r in E. lia.
  - intros [->| ->].
    + rewrite <- lxor_pow2 by lia. rewrite (Z.lxor_comm y), Z.lxor_assoc, Z.lxor_nilpotent. apply Z.lxor_0_r.
    + rewrite <- (lxor_pow2 m x) by lia. rewrite <- Z.lxor_assoc, Z.lxor_nilpotent. reflexivity.
Qed.

Lemma lxor_even : forall a b, Z.lxor (2 * a) (2 * b) = 2 * Z.lxor a b.
Proof. intros. change 2 with (2 ^ 1) at 1 2 3. rewrite !(Z.mul_comm (2 ^ 1)), <- !Z.shiftl_mul_pow2 by lia. symmetry. apply Z.shiftl_lxor. Qed.

Lemma lxor_one : forall a, Z.lxor (2 * a) 1 = 2 * a + 1.
Proof.
  intros a. symmetry. apply Z.add_nocarry_lxor. apply Z.bits_inj'. intros k K. rewrite Z.land_spec, Z.bits_0.
  destruct (Z.eq_dec k 0) as [->|]; [rewrite Z.testbit_even_0; reflexivity|].
  replace k with (Z.succ (k - 1)) by lia. change 1 with (2 * 0 + 1) at 2. rewrite Z.testbit_odd_succ by lia. rewrite Z.bits_0. apply andb_false_r.
Qed.

(** Consecutive numbers differ in their trailing bits only. *)
Lemma lxor_succ : forall x, 0 <= x -> exists k, 0 <= k /\ Z.lxor x (x + 1) = 2 ^ (k + 1) - 1.
Proof.
  intros x X. pattern x. apply Zlt_0_ind; [|exact X]. clear x X. intros x IH X.
  destruct (Z.Even_or_Odd x) as [[m ->]|[m ->]].
  - exists 0. split; [lia|]. rewrite <- lxor_one. rewrite <- Z.lxor_assoc, Z.lxor_nilpotent. reflexivity.
  - destruct (IH m ltac:(lia)) as (k & K & E). exists (k + 1). split; [lia|].
    replace (2 * m + 1 + 1) with (2 * (m + 1)) by lia. rewrite <- lxor_one.
    rewrite Z.lxor_assoc, (Z.lxor_comm 1), <- Z.lxor_assoc. rewrite lxor_even, E, lxor_one.
    rewrite (Z.pow_add_r 2 (k + 1) 1) by lia. change (2 ^ 1) with 2. lia.
Qed.

Lemma gray_ones : forall k, 0 <= k -> gray (2 ^ (k + 1) - 1) = 2 ^ k.
Proof.
  intros k K. unfold gray. assert (P : 0 < 2 ^ k) by (apply Z.pow_pos_nonneg; lia).
  rewrite Z.pow_add_r by lia. change (2 ^ 1) with 2.
  replace ((2 ^ k * 2 - 1) / 2) with (2 ^ k - 1) by (apply (Z.div_unique _ 2 _ 1); lia).
  replace (2 ^ k * 2 - 1) with (2 ^ k - 1 + 2 ^ k) by lia.
  rewrite <- lxor_pow2 by lia. rewrite (Z.lxor_comm (2 ^ k - 1)), Z.lxor_assoc, Z.lxor_nilpotent. apply Z.lxor_0_r.
Qed.

Lemma gray_step : forall n x, 0 <= n -> 0 <= x < 2 ^ (n + 1) ->
  exists k, 0 <= k /\ Z.lxor (gray x) (gray (trunc (n + 1) (x + 1))) = 2 ^ k.
Proof.
  intros n x N X. destruct (Z.eq_dec x (2 ^ (n + 1) - 1)) as [->|NE].
  - exists n. split; [lia|]. unfold trunc. replace (2 ^ (n + 1) - 1 + 1) with (2 ^ (n + 1)) by lia.
    rewrite Z.mod_same by lia. rewrite gray_ones by lia. change (gray 0) with 0. apply Z.lxor_0_r.
  - rewrite trunc_id by lia. rewrite <- gray_lxor. destruct (lxor_succ x ltac:(lia)) as (k & K & ->).
    exists k. split; [lia|]. apply gray_ones. exact K.
Qed.

(** A sample of a pointer that takes one Gray step is the old or the new pointer. *)
Lemma sampled_step : forall m a b, (a = b \/ exists k, 0 <= k /\ Z.lxor a b = 2 ^ k) -> sampled m a b = a \/ sampled m a b = b.
Proof.
  intros m a b [->|(k & K & E)]; unfold sampled.
  - left. rewrite Z.lxor_nilpotent, Z.land_0_r. apply Z.lxor_0_r.
  - rewrite E. destruct (Z.testbit m k) eqn:T.
    + right. assert (L : Z.land m (2 ^ k) = 2 ^ k).
      { apply Z.bits_inj'. intros j J. rewrite Z.land_spec, Z.pow2_bits_eqb by lia.
        destruct (Z.eqb_spec k j) as [<-|]; [rewrite T; reflexivity|apply andb_false_r]. }
      rewrite L, <- E, <- Z.lxor_assoc, Z.lxor_nilpotent. reflexivity.
    + left. assert (L : Z.land m (2 ^ k) = 0).
      { apply Z.bits_inj'. intros j J. rewrite Z.land_spec, Z.pow2_bits_eqb, Z.bits_0 by lia.
        destruct (Z.eqb_spec k j) as [<-|]; [rewrite T; reflexivity|apply andb_false_r]. }
      rewrite L. apply Z.lxor_0_r.
Qed.

(** The comparison of Gray pointers in the write domain. *)
Lemma full_spec : forall n x y, 1 <= n -> 0 <= x < 2 ^ (n + 1) -> 0 <= y < 2 ^ (n + 1) ->
  Bool.eqb (bit (gray x) n) (bit (gray y) n) || Bool.eqb (bit (gray x) (n - 1)) (bit (gray y) (n - 1)) ||
  negb (slice 0 (n - 1) (gray x) =? slice 0 (n - 1) (gray y)) = false <-> x = y + 2 ^ n \/ y = x + 2 ^ n.
Proof.
  intros n x y N X Y. rewrite <- lxor_flip by lia.
  assert (GX := gray_bound (n + 1) x ltac:(lia) X). assert (GY := gray_bound (n + 1) y ltac:(lia) Y).
  assert (G3 : gray (2 ^ n) = Z.lxor (2 ^ n) (2 ^ (n - 1))).
  { unfold gray. f_equal. replace n with (n - 1 + 1) at 1 by lia. rewrite Z.pow_add_r by lia. change (2 ^ 1) with 2. apply Z.div_mul. lia. }
  assert (A : Z.lxor x y = 2 ^ n <-> Z.lxor (gray x) (gray y) = Z.lxor (2 ^ n) (2 ^ (n - 1))).
  { rewrite <- gray_lxor, <- G3. split; [intros ->; reflexivity|]. apply gray_inj; [apply Z.lxor_nonneg; lia|apply Z.pow_nonneg; lia]. }
  rewrite A. clear A G3. revert GX GY. generalize (gray x) as a. generalize (gray y) as b. clear x y X Y. intros b a Ha Hb.
  unfold bit. rewrite !orb_false_iff, !eqb_false_iff, negb_false_iff, Z.eqb_eq. unfold slice. change (2 ^ 0) with 1. rewrite !Z.div_1_r.
  assert (HI : forall z k, 0 <= z < 2 ^ (n + 1) -> n < k -> Z.testbit z k = false).
  { intros z k Hz Hk. destruct (Z.eq_dec z 0) as [->|]; [apply Z.bits_0|]. apply Z.bits_above_log2; [lia|].
    assert (Z.log2 z < n + 1) by (apply Z.log2_lt_pow2; lia). lia. }
  assert (XN : forall u v, u <> v -> xorb u v = true) by (intros [] [] U; try reflexivity; exfalso; apply U; reflexivity).
  split.
  - intros [[B1 B2] S]. apply Z.bits_inj'. intros k K. rewrite !Z.lxor_spec, !Z.pow2_bits_eqb by lia.
    destruct (Z.eqb_spec n k) as [<-|].
    { destruct (Z.eqb_spec (n - 1) n); [lia|]. rewrite XN by exact B1. reflexivity. }
    destruct (Z.eqb_spec (n - 1) k) as [<-|]; [rewrite XN by exact B2; reflexivity|].
    destruct (Z.lt_ge_cases n k); [rewrite !HI by lia; reflexivity|].
    rewrite <- (Z.mod_pow2_bits_low a (n - 1) k), <- (Z.mod_pow2_bits_low b (n - 1) k) by lia. rewrite S. apply xorb_nilpotent.
  - intros E.
    assert (T : forall k, 0 <= k -> xorb (Z.testbit a k) (Z.testbit b k) = xorb (n =? k) (n - 1 =? k)).
    { intros k K. rewrite <- Z.lxor_spec, E, Z.lxor_spec, !Z.pow2_bits_eqb by lia. reflexivity. }
    assert (XT : forall u v, xorb u v = true -> u <> v) by (intros [] []; cbn; congruence).
    split; [split|].
    + apply XT. rewrite T by lia. rewrite Z.eqb_refl. destruct (Z.eqb_spec (n - 1) n); [lia|reflexivity].
    + apply XT. rewrite T by lia. rewrite Z.eqb_refl. destruct (Z.eqb_spec n (n - 1)); [lia|reflexivity].
    + apply Z.bits_inj'. intros k K. destruct (Z.lt_ge_cases k (n - 1)).
      * rewrite !Z.mod_pow2_bits_low by lia. apply xorb_eq. rewrite T by lia.
        destruct (Z.eqb_spec n k); [lia|]. destruct (Z.eqb_spec (n - 1) k); [lia|reflexivity].
      * rewrite !Z.mod_pow2_bits_high by lia. reflexivity.
Qed.

(** * The memory *)
Lemma set_nth_length : forall (A : Type) k (x : A) l, length (set_nth k x l) = length l.
Proof. intros A k x l. revert k. induction l as [|y l IH]; intros [|k]; cbn; congruence. Qed.
Lemma set_nth_eq : forall (A : Type) k (x d : A) l, (k < length l)%nat -> nth k (set_nth k x l) d = x.
Proof. intros A k x d l. revert k. induction l as [|y l IH]; intros [|k] H; cbn in *; [lia|lia|reflexivity|apply IH; lia]. Qed.
Lemma set_nth_neq : forall (A : Type) k j (x d : A) l, k <> j -> nth j (set_nth k x l) d = nth j l d.
Proof. intros A k j x d l. revert k j. induction l as [|y l IH]; intros [|k] [|j] H; cbn; try reflexivity; [lia|apply IH; lia]. Qed.

Section Run.
Variable A : Type.
Variables (n : Z) (d0 : A) (mem : list A) (ra : Z) (i : nat -> af_in A).
Hypothesis N : 1 <= n.
Hypothesis HM : Z.of_nat (length mem) = 2 ^ n.
Definition f_st (t : nat) : af_st A := af_run n mem ra i t.
Definition f_wr (t : nat) : bool := ai_w (i t) && (af_writable n (f_st t) && ai_we (i t)).
Definition f_rd (t : nat) : bool := ai_r (i t) && (af_readable (f_st t) && ai_re (i t)).
Definition f_P (t : nat) : Z := Z.of_nat (occurrences f_wr 0 t).
Definition f_C (t : nat) : Z := Z.of_nat (occurrences f_rd 0 t).
Definition f_written (t : nat) : list A := collect (fun u => if f_wr u then Some (ai_d (i u)) else None) 0 t.
Notation M := (2 ^ (n + 1)).

Lemma f_written_length : forall t, Z.of_nat (length (f_written t)) = f_P t.
Proof.
  intros t. unfold f_written, f_P. rewrite collect_length. f_equal. apply occurrences_ext. intros u _. destruct (f_wr u); reflexivity.
Qed.

Record f_inv (t : nat) (P0 P1 C0 C1 : Z) : Prop := {
  fi_pb : af_pb (f_st t) = f_P t mod M;
  fi_pq : af_pq (f_st t) = gray (f_P t mod M);
  fi_cb : af_cb (f_st t) = f_C t mod M;
  fi_cq : af_cq (f_st t) = gray (f_C t mod M);
  fi_sp : af_p0 (f_st t) = gray (P0 mod M);
  fi_sq : af_p1 (f_st t) = gray (P1 mod M);
  fi_sc : af_c0 (f_st t) = gray (C0 mod M);
  fi_sd : af_c1 (f_st t) = gray (C1 mod M);
  fi_pord : 0 <= P1 <= P0 /\ P0 <= f_P t;
  fi_cord : 0 <= C1 <= C0 /\ C0 <= f_C t;
  fi_cp : f_C t <= P1;
  fi_pc : f_P t <= C1 + 2 ^ n;
  fi_len : Z.of_nat (length (af_mem (f_st t))) = 2 ^ n;
  fi_mem : forall j, f_C t <= j < f_P t -> nth (Z.to_nat (j mod 2 ^ n)) (af_mem (f_st t)) d0 = nth (Z.to_nat j) (f_written t) d0;
  fi_ra : af_ra (f_st t) = f_C t mod 2 ^ n \/ (P1 = 0 /\ P0 = 0);
  fi_la : forall u, (u <= t)%nat -> (1 <= occurrences (fun v => ai_r (i v)) u (t - u))%nat -> f_P u <= P0;
  fi_lb : forall u, (u <= t)%nat -> (2 <= occurrences (fun v => ai_r (i v)) u (t - u))%nat -> f_P u <= P1;
  fi_ma : forall u, (u <= t)%nat -> (1 <= occurrences (fun v => ai_w (i v)) u (t - u))%nat -> f_C u <= C0;
  fi_mb : forall u, (u <= t)%nat -> (2 <= occurrences (fun v => ai_w (i v)) u (t - u))%nat -> f_C u <= C1
}.

Lemma pow_facts : 0 < 2 ^ n /\ M = 2 * 2 ^ n.
Proof. split; [apply Z.pow_pos_nonneg; lia|]. rewrite Z.pow_add_r by lia. change (2 ^ 1) with 2. lia. Qed.

Lemma mod_eq_near : forall a b, 0 <= b - a < M -> a mod M = b mod M -> a = b.
Proof.
  intros a b H E. destruct pow_facts as [P PM]. assert (D : (b - a) mod M = 0) by (rewrite Zminus_mod, E, Z.sub_diag; reflexivity).
  rewrite Z.mod_small in D by lia. lia.
Qed.

Lemma readable_spec : forall t P0 P1 C0 C1, f_inv t P0 P1 C0 C1 -> af_readable (f_st t) = (f_C t <? P1).
Proof.
  intros t P0 P1 C0 C1 []. destruct pow_facts as [P PM]. unfold af_readable. rewrite fi_cq0, fi_sq0.
  destruct (Z.eqb_spec (gray (f_C t mod M)) (gray (P1 mod M))) as [E|E]; cbn [negb].
  - apply gray_inj in E; try (apply Z.mod_pos_bound; lia). apply mod_eq_near in E; [|lia]. symmetry. apply Z.ltb_ge. lia.
  - destruct (Z.ltb_spec (f_C t) P1); [reflexivity|]. exfalso. apply E. do 2 f_equal. lia.
Qed.

Lemma writable_spec : forall t P0 P1 C0 C1, f_inv t P0 P1 C0 C1 -> af_writable n (f_st t) = (f_P t <? C1 + 2 ^ n).
Proof.
  intros t P0 P1 C0 C1 []. destruct pow_facts as [P PM]. unfold af_writable. rewrite fi_pq0, fi_sd0.
  pose proof (full_spec n (f_P t mod M) (C1 mod M) N (Z.mod_pos_bound (f_P t) M ltac:(lia)) (Z.mod_pos_bound C1 M ltac:(lia))) as F.
  match goal with |- ?x = _ => destruct x eqn:E end.
  - symmetry. apply Z.ltb_lt. destruct (Z.eq_dec (f_P t) (C1 + 2 ^ n)) as [Q|]; [|lia]. exfalso.
    enough (true = false) by discriminate. apply F. rewrite Q.
    pose proof (Z.mod_pos_bound C1 M ltac:(lia)) as B. pose proof (Z.div_mod C1 M ltac:(lia)) as D.
    destruct (Z.lt_ge_cases (C1 mod M) (2 ^ n)).
    + left. symmetry. apply (Z.mod_unique _ _ (C1 / M)); lia.
    + right. enough (((C1 + 2 ^ n) mod M) = C1 mod M - 2 ^ n) by lia. symmetry. apply (Z.mod_unique _ _ (C1 / M + 1)); lia.
  - symmetry. apply Z.ltb_ge. destruct (proj1 F eq_refl) as [Q|Q].
    + assert (D : f_P t mod M = (C1 + 2 ^ n) mod M).
      { rewrite Q. rewrite <- Z.add_mod_idemp_l by lia. symmetry. apply Z.mod_small. pose proof (Z.mod_pos_bound (f_P t) M ltac:(lia)). pose proof (Z.mod_pos_bound C1 M ltac:(lia)). lia. }
      apply mod_eq_near in D; lia.
    + assert (D : (f_P t + 2 ^ n) mod M = C1 mod M).
      { rewrite Q. rewrite <- Z.add_mod_idemp_l by lia. apply Z.mod_small. pose proof (Z.mod_pos_bound (f_P t) M ltac:(lia)). pose proof (Z.mod_pos_bound C1 M ltac:(lia)). lia. }
      symmetry in D. destruct (Z.le_gt_cases (C1 + 2 ^ n) (f_P t)); [lia|]. apply mod_eq_near in D; lia.
Qed.

Lemma dout_spec : forall t P0 P1 C0 C1, f_inv t P0 P1 C0 C1 -> af_readable (f_st t) = true ->
  af_dout d0 (f_st t) = nth (Z.to_nat (f_C t)) (f_written t) d0.
Proof.
  intros t P0 P1 C0 C1 I R. rewrite (readable_spec _ _ _ _ _ I) in R. apply Z.ltb_lt in R. destruct I. unfold af_dout.
  destruct fi_ra0 as [->|]; [|unfold f_C in *; lia]. apply fi_mem0. lia.
Qed.

Lemma next_mod : forall c x, af_next n c (x mod M) = (x + (if c then 1 else 0)) mod M.
Proof.
  intros c x. destruct pow_facts as [P PM]. unfold af_next, trunc. destruct c; [apply Z.add_mod_idemp_l; lia|]. rewrite Z.add_0_r. reflexivity.
Qed.

Lemma low_mod : forall x, trunc n (x mod M) = x mod 2 ^ n.
Proof.
  intros x. destruct pow_facts as [P PM]. unfold trunc. symmetry. apply Znumtheory.Zmod_div_mod; [lia|lia|]. exists 2. lia.
Qed.

Lemma pointer_sample : forall m x (c : bool), exists y, x <= y <= x + (if c then 1 else 0) /\
  sampled m (gray (x mod M)) (gray ((x + (if c then 1 else 0)) mod M)) = gray (y mod M).
Proof.
  intros m x c. destruct pow_facts as [P PM].
  destruct (sampled_step m (gray (x mod M)) (gray ((x + (if c then 1 else 0)) mod M))) as [E|E].
  - destruct c; [right|left; rewrite Z.add_0_r; reflexivity].
    rewrite <- Z.add_mod_idemp_l by lia. apply gray_step; [lia|]. apply Z.mod_pos_bound. lia.
  - exists x. split; [destruct c; lia|exact E].
  - exists (x + (if c then 1 else 0)). split; [destruct c; lia|exact E].
Qed.

Lemma f_P_S : forall t, f_P (S t) = f_P t + (if f_wr t then 1 else 0).
Proof. intros. unfold f_P. cbn [occurrences Nat.add]. destruct (f_wr t); lia. Qed.
Lemma f_C_S : forall t, f_C (S t) = f_C t + (if f_rd t then 1 else 0).
Proof. intros. unfold f_C. cbn [occurrences Nat.add]. destruct (f_rd t); lia. Qed.
Lemma occ_S : forall (e : nat -> bool) u t, (u <= t)%nat -> occurrences e u (S t - u) = (occurrences e u (t - u) + if e t then 1 else 0)%nat.
Proof. intros e u t H. replace (S t - u)%nat with (S (t - u)) by lia. cbn [occurrences]. replace (u + (t - u))%nat with t by lia. reflexivity. Qed.

(** One domain's side of a step: sampled pointer and its two registers. *)
Lemma sync_step : forall (e : nat -> bool) (g : nat -> Z) t X0 X1 Y,
  (forall u v, (u <= v)%nat -> g u <= g v) -> g t <= Y <= g (S t) ->
  (forall u, (u <= t)%nat -> (1 <= occurrences e u (t - u))%nat -> g u <= X0) ->
  (forall u, (u <= t)%nat -> (2 <= occurrences e u (t - u))%nat -> g u <= X1) -> X1 <= X0 <= g t ->
  let X0' := if e t then Y else X0 in let X1' := if e t then X0 else X1 in
  (forall u, (u <= S t)%nat -> (1 <= occurrences e u (S t - u))%nat -> g u <= X0') /\
  (forall u, (u <= S t)%nat -> (2 <= occurrences e u (S t - u))%nat -> g u <= X1') /\ X1' <= X0' <= g (S t) /\ X1 <= X1'.
Proof.
  intros e g t X0 X1 Y MO HY H0 H1 HX X0' X1'. unfold X0', X1'. pose proof (MO t (S t) ltac:(lia)) as M1.
  repeat split.
  - intros u U. destruct (Nat.eq_dec u (S t)) as [->|NE]; [rewrite Nat.sub_diag; cbn; lia|].
    rewrite occ_S by lia. intros O. pose proof (MO u t ltac:(lia)). destruct (e t); [lia|]. apply H0; lia.
  - intros u U. destruct (Nat.eq_dec u (S t)) as [->|NE]; [rewrite Nat.sub_diag; cbn; lia|].
    rewrite occ_S by lia. intros O. destruct (e t); [apply H0; lia|apply H1; lia].
  - destruct (e t); lia.
  - destruct (e t); lia.
  - destruct (e t); lia.
Qed.

Lemma f_P_mono : forall u v, (u <= v)%nat -> f_P u <= f_P v.
Proof. intros u v H. induction H as [|v H IH]; [lia|]. rewrite f_P_S. destruct (f_wr v); lia. Qed.
Lemma f_C_mono : forall u v, (u <= v)%nat -> f_C u <= f_C v.
Proof. intros u v H. induction H as [|v H IH]; [lia|]. rewrite f_C_S. destruct (f_rd v); lia. Qed.

Lemma f_inv_all : forall t, exists P0 P1 C0 C1, f_inv t P0 P1 C0 C1.
Proof.
  destruct pow_facts as [PP PM].
  induction t as [|t (P0 & P1 & C0 & C1 & I)].
  - exists 0, 0, 0, 0. constructor; try (rewrite Z.mod_0_l by lia; reflexivity); try (cbn; lia).
    all: try exact HM. all: intros u U; destruct u; cbn; lia.
  - pose proof (readable_spec _ _ _ _ _ I) as RS. pose proof (writable_spec _ _ _ _ _ I) as WS. destruct I.
    destruct (pointer_sample (ai_mp (i t)) (f_P t) (f_wr t)) as (YP & YP1 & YP2).
    destruct (pointer_sample (ai_mc (i t)) (f_C t) (f_rd t)) as (YC & YC1 & YC2).
    rewrite <- f_P_S in YP1, YP2. rewrite <- f_C_S in YC1, YC2.
    destruct (sync_step (fun v => ai_r (i v)) f_P t P0 P1 YP f_P_mono YP1 fi_la0 fi_lb0 ltac:(lia)) as (LA & LB & LC & LD).
    destruct (sync_step (fun v => ai_w (i v)) f_C t C0 C1 YC f_C_mono YC1 fi_ma0 fi_mb0 ltac:(lia)) as (MA & MB & MC & MD).
    exists (if ai_r (i t) then YP else P0), (if ai_r (i t) then P0 else P1), (if ai_w (i t) then YC else C0), (if ai_w (i t) then C0 else C1).
    assert (EPB : (if ai_w (i t) then af_next n (af_writable n (f_st t) && ai_we (i t)) (af_pb (f_st t)) else af_pb (f_st t)) = f_P (S t) mod M).
    { rewrite fi_pb0, f_P_S, next_mod. unfold f_wr. destruct (ai_w (i t)); cbn [andb]; [reflexivity|]. rewrite Z.add_0_r. reflexivity. }
    assert (ECB : (if ai_r (i t) then af_next n (af_readable (f_st t) && ai_re (i t)) (af_cb (f_st t)) else af_cb (f_st t)) = f_C (S t) mod M).
    { rewrite fi_cb0, f_C_S, next_mod. unfold f_rd. destruct (ai_r (i t)); cbn [andb]; [reflexivity|]. rewrite Z.add_0_r. reflexivity. }
    assert (EPQ : (if ai_w (i t) then gray (f_P (S t) mod M) else af_pq (f_st t)) = gray (f_P (S t) mod M)).
    { destruct (ai_w (i t)) eqn:E; [reflexivity|]. rewrite fi_pq0, f_P_S. unfold f_wr. rewrite E. cbn [andb]. rewrite Z.add_0_r. reflexivity. }
    assert (ECQ : (if ai_r (i t) then gray (f_C (S t) mod M) else af_cq (f_st t)) = gray (f_C (S t) mod M)).
    { destruct (ai_r (i t)) eqn:E; [reflexivity|]. rewrite fi_cq0, f_C_S. unfold f_rd. rewrite E. cbn [andb]. rewrite Z.add_0_r. reflexivity. }
    assert (ST : f_st (S t) = af_step n (f_st t) (i t)) by reflexivity.
    unfold af_step in ST. rewrite EPB, ECB, EPQ, ECQ in ST.
    assert (WC : f_wr t = true -> f_P t < C1 + 2 ^ n).
    { unfold f_wr. rewrite WS. destruct (Z.ltb_spec (f_P t) (C1 + 2 ^ n)); [lia|]. rewrite andb_false_r. discriminate. }
    assert (RC : f_rd t = true -> f_C t < P1 /\ ai_r (i t) = true).
    { unfold f_rd. rewrite RS. destruct (Z.ltb_spec (f_C t) P1); [|rewrite andb_false_r; discriminate]. destruct (ai_r (i t)); [lia|discriminate]. }
    assert (EW : ai_w (i t) && (af_writable n (f_st t) && ai_we (i t)) = f_wr t) by reflexivity.
    assert (WT : f_written (S t) = f_written t ++ (if f_wr t then [ai_d (i t)] else [])).
    { unfold f_written. cbn [collect Nat.add]. destruct (f_wr t); reflexivity. }
    pose proof (f_written_length t) as WL.
    rewrite EW in ST.
    assert (C0T : 0 <= f_C t) by (unfold f_C; lia).
    constructor; rewrite ?ST; cbn [af_pb af_pq af_cb af_cq af_p0 af_p1 af_c0 af_c1 af_mem af_ra]; try reflexivity; try assumption.
    + rewrite fi_pq0, YP2, fi_sp0. destruct (ai_r (i t)); reflexivity.
    + rewrite fi_sp0, fi_sq0. destruct (ai_r (i t)); reflexivity.
    + rewrite fi_cq0, YC2, fi_sc0. destruct (ai_w (i t)); reflexivity.
    + rewrite fi_sc0, fi_sd0. destruct (ai_w (i t)); reflexivity.
    + split; [split|]; destruct (ai_r (i t)); lia.
    + split; [split|]; destruct (ai_w (i t)); lia.
    + rewrite f_C_S. destruct (f_rd t); [|lia]. destruct (RC eq_refl) as [R1 R2]. rewrite R2 in LD |- *. lia.
    + rewrite f_P_S. destruct (f_wr t); [|lia]. specialize (WC eq_refl). lia.
    + destruct (f_wr t); rewrite ?set_nth_length; exact fi_len0.
    + intros j J. rewrite WT. rewrite fi_pb0, low_mod.
      rewrite f_C_S, f_P_S in J.
      assert (JB : 0 <= j mod 2 ^ n < 2 ^ n) by (apply Z.mod_pos_bound; lia).
      assert (PB : 0 <= f_P t mod 2 ^ n < 2 ^ n) by (apply Z.mod_pos_bound; lia).
      destruct (Z.eq_dec j (f_P t)) as [->|NE].
      * destruct (f_wr t); [|lia]. rewrite set_nth_eq by lia. rewrite app_nth2 by lia.
        replace (Z.to_nat (f_P t) - length (f_written t))%nat with 0%nat by lia. reflexivity.
      * rewrite app_nth1 by (destruct (f_wr t); destruct (f_rd t); lia).
        assert (OLD : nth (Z.to_nat (j mod 2 ^ n)) (af_mem (f_st t)) d0 = nth (Z.to_nat j) (f_written t) d0)
          by (apply fi_mem0; destruct (f_wr t); destruct (f_rd t); lia).
        destruct (f_wr t) eqn:W; [|exact OLD]. specialize (WC eq_refl).
        rewrite set_nth_neq; [exact OLD|]. intros Q. apply Z2Nat.inj in Q; [|lia|lia].
        assert (D : (f_P t - j) mod 2 ^ n = 0) by (rewrite Zminus_mod, Q, Z.sub_diag; reflexivity).
        rewrite Z.mod_small in D; [|destruct (f_rd t); lia]. lia.
    + destruct (ai_r (i t)) eqn:R.
      * left. apply low_mod.
      * replace (f_C (S t)) with (f_C t) by (rewrite f_C_S; unfold f_rd; rewrite R; cbn; lia). exact fi_ra0.
Qed.

(** * Consequences *)
Definition f_read (t : nat) : list A := collect (fun u => if f_rd u then Some (af_dout d0 (f_st u)) else None) 0 t.

Lemma f_read_length : forall t, Z.of_nat (length (f_read t)) = f_C t.
Proof.
  intros t. unfold f_read, f_C. rewrite collect_length. f_equal. apply occurrences_ext. intros u _. destruct (f_rd u); reflexivity.
Qed.

Lemma firstn_snoc : forall (l : list A) k, (k < length l)%nat -> firstn (S k) l = firstn k l ++ [nth k l d0].
Proof.
  induction l as [|x l IH]; intros k H; [cbn in H; lia|]. destruct k; [reflexivity|]. cbn [firstn nth app]. f_equal. apply IH. cbn in H. lia.
Qed.

Lemma f_order : forall t, f_read t = firstn (length (f_read t)) (f_written t).
Proof.
  induction t as [|t IH]; [reflexivity|].
  assert (W : f_written (S t) = f_written t ++ (if f_wr t then [ai_d (i t)] else [])).
  { unfold f_written. cbn [collect Nat.add]. destruct (f_wr t); reflexivity. }
  assert (R : f_read (S t) = f_read t ++ (if f_rd t then [af_dout d0 (f_st t)] else [])).
  { unfold f_read. cbn [collect Nat.add]. destruct (f_rd t); reflexivity. }
  destruct (f_inv_all t) as (P0 & P1 & C0 & C1 & I). pose proof (f_read_length t) as RL. pose proof (f_written_length t) as WL.
  assert (LE : (length (f_read t) <= length (f_written t))%nat) by (destruct I; lia).
  rewrite W, R. destruct (f_rd t) eqn:E.
  - assert (RD : af_readable (f_st t) = true) by (unfold f_rd in E; destruct (ai_r (i t)), (af_readable (f_st t)); try discriminate; reflexivity).
    rewrite (dout_spec _ _ _ _ _ I RD). rewrite (readable_spec _ _ _ _ _ I) in RD. apply Z.ltb_lt in RD.
    assert (LT : (length (f_read t) < length (f_written t))%nat) by (destruct I; lia).
    rewrite app_length. cbn [length]. rewrite Nat.add_1_r. rewrite firstn_app.
    replace (S (length (f_read t)) - length (f_written t))%nat with 0%nat by lia. rewrite firstn_O, app_nil_r.
    rewrite firstn_snoc by exact LT. rewrite <- IH. do 2 f_equal. f_equal. lia.
  - rewrite app_nil_r, firstn_app. replace (length (f_read t) - length (f_written t))%nat with 0%nat by lia.
    cbn [firstn]. rewrite app_nil_r. exact IH.
Qed.

Lemma f_capacity : forall t, f_P t <= f_C t + 2 ^ n.
Proof. intros t. destruct (f_inv_all t) as (P0 & P1 & C0 & C1 & []). lia. Qed.

Lemma f_available : forall u t, (u <= t)%nat -> (2 <= occurrences (fun v => ai_r (i v)) u (t - u))%nat ->
  f_C t < f_P u -> af_readable (f_st t) = true.
Proof.
  intros u t U O H. destruct (f_inv_all t) as (P0 & P1 & C0 & C1 & I). rewrite (readable_spec _ _ _ _ _ I). apply Z.ltb_lt.
  destruct I. specialize (fi_lb0 u U O). lia.
Qed.

Lemma f_room : forall u t, (u <= t)%nat -> (2 <= occurrences (fun v => ai_w (i v)) u (t - u))%nat ->
  f_P t < f_C u + 2 ^ n -> af_writable n (f_st t) = true.
Proof.
  intros u t U O H. destruct (f_inv_all t) as (P0 & P1 & C0 & C1 & I). rewrite (writable_spec _ _ _ _ _ I). apply Z.ltb_lt.
  destruct I. specialize (fi_mb0 u U O). lia.
Qed.

(** A word on offer stays on offer until it is taken. *)
Lemma f_held : forall t, af_readable (f_st t) = true -> f_rd t = false ->
  af_readable (f_st (S t)) = true /\ af_dout d0 (f_st (S t)) = af_dout d0 (f_st t).
Proof.
  intros t R D. destruct (f_inv_all t) as (P0 & P1 & C0 & C1 & I). destruct (f_inv_all (S t)) as (P0' & P1' & C0' & C1' & I').
  assert (R' : af_readable (f_st (S t)) = true).
  { assert (CS : f_C (S t) = f_C t) by (rewrite f_C_S, D; lia).
    destruct (ai_r (i t)) eqn:E.
    - (* the pointer in the read domain never goes back *)
      assert (X : af_p1 (f_st (S t)) = af_p0 (f_st t)) by (change (f_st (S t)) with (af_step n (f_st t) (i t)); unfold af_step; cbn [af_p1]; rewrite E; reflexivity).
      assert (Y : af_cq (f_st (S t)) = af_cq (f_st t)) by (rewrite (fi_cq _ _ _ _ _ I'), (fi_cq _ _ _ _ _ I), CS; reflexivity).
      rewrite (readable_spec _ _ _ _ _ I) in R. apply Z.ltb_lt in R.
      unfold af_readable. rewrite X, Y, (fi_cq _ _ _ _ _ I), (fi_sp _ _ _ _ _ I). destruct I. destruct pow_facts as [PP PM].
      destruct (Z.eqb_spec (gray (f_C t mod M)) (gray (P0 mod M))) as [Q|]; [|reflexivity]. exfalso.
      apply gray_inj in Q; try (apply Z.mod_pos_bound; lia). apply mod_eq_near in Q; lia.
    - assert (ST : f_st (S t) = af_step n (f_st t) (i t)) by reflexivity.
      assert (X : af_p1 (f_st (S t)) = af_p1 (f_st t)) by (rewrite ST; unfold af_step; cbn [af_p1]; rewrite E; reflexivity).
      assert (Y : af_cq (f_st (S t)) = af_cq (f_st t)) by (rewrite ST; unfold af_step; cbn [af_cq]; rewrite E; reflexivity).
      unfold af_readable. rewrite X, Y. exact R. }
  split; [exact R'|]. rewrite (dout_spec _ _ _ _ _ I R), (dout_spec _ _ _ _ _ I' R').
  rewrite f_C_S, D, Z.add_0_r. rewrite (readable_spec _ _ _ _ _ I) in R. apply Z.ltb_lt in R.
  assert (W : f_written (S t) = f_written t ++ (if f_wr t then [ai_d (i t)] else [])).
  { unfold f_written. cbn [collect Nat.add]. destruct (f_wr t); reflexivity. }
  rewrite W. pose proof (f_written_length t). assert (0 <= f_C t) by (unfold f_C; lia). destruct I. rewrite app_nth1 by lia. reflexivity.
Qed.
End Run.
