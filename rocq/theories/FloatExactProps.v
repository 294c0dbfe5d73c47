(** C50: the multiplier with changing operands. *)
From Coq Require Import ZArith List Bool Lia Arith.
From Verif Require Import Hdl Trace DelayModel PipeModel PipeProofs FloatModel FloatSpec FloatProofs FloatProps.
Import ListNotations.
Open Scope Z_scope.

(** Significand of a half with its leading bit, and the product of those of a pair. *)
Definition sig (h : Z) : Z := if h / 1024 =? 0 then h mod 1024 else 1024 + h mod 1024.
Definition sigs (x : fpair) : Z := sig (f_a x) * sig (f_b x).

(** Delivered words: the one of slot [j] depends on its pair and the pair of the next slot. *)
Lemma fm_stream : forall i n,
  let sl := fm_slots i n in let d := (false, zero_pair) in
  fm_outputs i n = map (fun j => fm_fun (snd (nth j sl d)) (snd (nth (S j) sl d))) (filter (fun j => fst (nth j sl d)) (seq 0 (length sl - 5))).
Proof.
  intros i n sl d. unfold fm_outputs.
  rewrite (pa_outputs_general _ _ _ fm_step fm_out fm_init fm_latency ltac:(unfold fm_latency; lia) i n).
  fold (fm_slots i n). fold sl. unfold fm_latency.
  rewrite (filter_ext (fun j => nth j (map fst sl) false) (fun j => fst (nth j sl d))).
  2:{ intros j. exact (map_nth fst sl d j). }
  apply map_ext_in. intros j Hj. apply filter_In in Hj as [Hj _]. apply in_seq in Hj.
  rewrite fm_at by (rewrite map_length; lia). rewrite <- !(map_nth snd sl d). reflexivity.
Qed.

Lemma fm_same_sigs : forall x y, finite (f_a x) -> finite (f_b x) -> finite (f_a y) -> finite (f_b y) -> sigs y = sigs x -> fm_fun x y = fm_fun x x.
Proof.
  intros x y FA FB GA GB E. destruct (Z.eq_dec (f_a x) 0) as [Z0|NA]; [rewrite !fm_zero by auto; reflexivity|].
  destruct (Z.eq_dec (f_b x) 0) as [Z0|NB]; [rewrite !fm_zero by auto; reflexivity|].
  rewrite !fm_explicit by assumption. change (pmul y = pmul x) in E. rewrite E. reflexivity.
Qed.

Lemma slice10 : forall z, 0 <= slice 12 10 z < 1024.
Proof. intros z. unfold slice. apply Z.mod_pos_bound. reflexivity. Qed.

Lemma fm_normal : forall x y, finite (f_a x) -> finite (f_b x) -> finite (f_a y) -> finite (f_b y) ->
  2 ^ 35 <= hval (f_a x) * hval (f_b x) ->
  fm_fun x y / 1024 = fm_fun x x / 1024 /\
  fm_fun x y mod 1024 = (sigs y * 2 ^ (22 - Z.log2 (sigs x)) / 2 ^ 12) mod 2 ^ 10.
Proof.
  intros x y FA FB GA GB HP.
  assert (NA : f_a x <> 0) by (intros E; rewrite E in HP; change (hval 0) with 0 in HP; lia).
  assert (NB : f_b x <> 0) by (intros E; rewrite E, Z.mul_comm in HP; change (hval 0) with 0 in HP; lia).
  destruct (fields _ FA) as (_ & _ & _ & _ & _ & Ra & Ya & Za & _). destruct (fields _ FB) as (_ & _ & _ & _ & _ & Rb & Yb & Zb & _).
  assert (PV : hval (f_a x) * hval (f_b x) = pmul x * 2 ^ (pexp x + 13)).
  { rewrite !hval_mant by apply FA || apply FB. unfold pmul, pexp.
    replace (expo (f_a x) + expo (f_b x) - 15 + 13) with ((expo (f_a x) - 1) + (expo (f_b x) - 1)) by lia.
    rewrite Z.pow_add_r by lia. lia. }
  assert (PM : 0 < pmul x < 2 ^ 22).
  { unfold pmul. assert (mant (f_a x) <> 0) by (intros E; apply NA, Za, E). assert (mant (f_b x) <> 0) by (intros E; apply NB, Zb, E).
    change (2 ^ 22) with 4194304. nia. }
  assert (LG : 0 <= Z.log2 (pmul x) < 22) by (split; [apply Z.log2_nonneg|apply Z.log2_lt_pow2; lia]).
  assert (PE : -13 <= pexp x <= 45) by (unfold pexp; lia).
  assert (BR : pexp x - pptr x <? 1 = false).
  { apply Z.ltb_ge. unfold pptr. apply Z.log2_le_mono in HP. rewrite PV in HP.
    rewrite Z.log2_mul_pow2 in HP by lia. rewrite Z.log2_pow2 in HP by lia. lia. }
  rewrite !fm_explicit by assumption. rewrite BR.
  set (e := trunc 5 (pexp x + 1 - pptr x)). split.
  - rewrite !(Z.add_comm (slice _ _ _)), !(Z.mul_comm 1024 e), !Z.div_add_l by lia.
    rewrite !(Z.div_small (slice _ _ _)) by apply slice10. reflexivity.
  - rewrite (Z.mul_comm 1024 e), Z.mod_add by lia. rewrite Z.mod_small by apply slice10.
    change (sigs y) with (pmul y). change (sigs x) with (pmul x). unfold pptr. replace (21 - Z.log2 (pmul x) + 1) with (22 - Z.log2 (pmul x)) by lia.
    unfold slice, trunc. set (q := pmul y * 2 ^ (22 - Z.log2 (pmul x))).
    change (2 ^ 22) with (2 ^ 12 * 2 ^ 10). rewrite Z.rem_mul_r by lia.
    rewrite (Z.mul_comm (2 ^ 12) ((q / 2 ^ 12) mod 2 ^ 10)), Z.div_add by lia.
    rewrite (Z.div_small (q mod 2 ^ 12)) by (apply Z.mod_pos_bound; reflexivity). rewrite Z.add_0_l. apply Z.mod_mod. lia.
Qed.

(** Each delivered word belongs to a valid slot, in order.  If the significands of the next slot have the same product (their exponents may
    be any) the word is the truncated product.  For products from 2^-13 to 65536 its exponent is right whatever comes next, and its ten
    fraction bits are those of the next slot's product of significands, aligned by the leading one of its own. *)
Theorem C50_changing_operands_partial : forall i n, exists js,
  js = filter (fun j => fst (nth j (fm_slots i n) (false, zero_pair))) (seq 0 (length (fm_slots i n) - 5)) /\
  length (fm_outputs i n) = length js /\
  forall k, (k < length js)%nat ->
    let j := nth k js 0%nat in
    let x := snd (nth j (fm_slots i n) (false, zero_pair)) in let y := snd (nth (S j) (fm_slots i n) (false, zero_pair)) in
    let r := nth k (fm_outputs i n) 0 in
    finite (f_a x) -> finite (f_b x) -> finite (f_a y) -> finite (f_b y) ->
    (in_range x -> sigs y = sigs x -> fm_ok x r) /\
    (2 ^ 35 <= hval (f_a x) * hval (f_b x) < 2 ^ 64 ->
     exists right, fm_ok x right /\ r / 1024 = right / 1024 /\
     r mod 1024 = (sigs y * 2 ^ (22 - Z.log2 (sigs x)) / 2 ^ 12) mod 2 ^ 10 /\
     right mod 1024 = (sigs x * 2 ^ (22 - Z.log2 (sigs x)) / 2 ^ 12) mod 2 ^ 10).
Proof.
  intros i n. eexists. split; [reflexivity|]. pose proof (fm_stream i n) as EO. cbv zeta in EO.
  set (js := filter _ _) in *. split; [rewrite EO, map_length; reflexivity|].
  intros k Hk j x y r FA FB GA GB.
  assert (ER : r = fm_fun x y).
  { unfold r. rewrite EO. set (sl := fm_slots i n) in *. set (d := (false, zero_pair)) in *.
    rewrite (nth_indep _ 0 (fm_fun (snd (nth 0 sl d)) (snd (nth 1 sl d)))) by (rewrite map_length; exact Hk).
    rewrite (map_nth (fun j => fm_fun (snd (nth j sl d)) (snd (nth (S j) sl d))) js 0%nat k). reflexivity. }
  clearbody x y r. subst r. split.
  - intros R E. rewrite fm_same_sigs by assumption. apply fm_product; [exact FA|exact FB|].
    destruct R as [R | [R | [R1 R2]]]; [left; exact R|right; left; exact R|right; right; split; [exact R1|]]. unfold pexp, expo. lia.
  - intros R. exists (fm_fun x x). split; [|split; [|split]].
    + apply fm_product; [exact FA|exact FB|]. right. left. exact R.
    + apply fm_normal; try assumption; apply R.
    + apply fm_normal; try assumption; apply R.
    + apply fm_normal; try assumption; apply R.
Qed.
Print Assumptions C50_changing_operands_partial.

(** Powers of two times 1.5, one pair per clock: every product is right although the exponents change. *)
Definition ex_fmc (t : nat) : pa_in fpair := Build_pa_in _ true {| f_a := 512 + 1024 * (14 + Z.of_nat t mod 3); f_b := 1024 * (16 - Z.of_nat t mod 2) |} true.
Example C50_ex_changing : fm_outputs ex_fmc 12 = map (fun t => 512 + 1024 * (14 + Z.of_nat t mod 3) + 1024 * (1 - Z.of_nat t mod 2)) (seq 0 7) /\
  sigs (pai_data _ (ex_fmc 1)) = sigs (pai_data _ (ex_fmc 0)).
Proof. vm_compute. split; reflexivity. Qed.
