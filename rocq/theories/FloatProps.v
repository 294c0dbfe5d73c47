(** Half-precision conversions and arithmetic: C47-C51, C69. *)
From Coq Require Import ZArith List Bool Lia Arith.
From Verif Require Import Hdl Trace DelayModel PipeModel PipeProofs FloatModel FloatSpec FloatProofs.
Import ListNotations.
Open Scope Z_scope.

(** * Streams accepted and delivered by the actors *)
Definition fp3_init := (fp_init, fp_init, fp_init).
Definition fp3_inputs i n := pa_inputs _ _ (three fp_step) fp3_init fp_latency i n.
Definition fp3_outputs i n := pa_outputs _ _ _ (three fp_step) (three_out fp_pix) fp3_init fp_latency i n.
Definition px3_init := (px_init, px_init, px_init).
Definition px3_inputs i n := pa_inputs _ _ (three px_step) px3_init px_latency i n.
Definition px3_outputs i n := pa_outputs _ _ _ (three px_step) (three_out px_out) px3_init px_latency i n.
Definition lu_init : lu_st := {| lu_out := 0 |}.
Definition fm_inputs i n := pa_inputs _ _ fm_step fm_init fm_latency i n.
Definition fm_outputs i n := pa_outputs _ _ _ fm_step fm_out fm_init fm_latency i n.
Definition fa_inputs i n := pa_inputs _ _ fa_step fa_init fa_latency i n.
Definition fa_outputs i n := pa_outputs _ _ _ fa_step fa_out fa_init fa_latency i n.

Definition zero_pair : fpair := {| f_a := 0; f_b := 0 |}.

(** * C49 *)
Theorem C49_leading_one : forall (dw : nat) x p, 0 <= p < Z.of_nat dw ->
  Z.testbit x p = true -> (forall q, p < q < Z.of_nat dw -> Z.testbit x q = false) ->
  lead_one dw x = Z.of_nat dw - 1 - p.
Proof.
  intros dw x p Hp T Z0.
  assert (MB : forall q, Z.testbit (x mod 2 ^ Z.of_nat dw) q = (q <? Z.of_nat dw) && Z.testbit x q).
  { intros q. destruct (Z.ltb_spec q (Z.of_nat dw)).
    - destruct (Z.lt_ge_cases q 0); [rewrite !Z.testbit_neg_r by lia; reflexivity|]. rewrite Z.mod_pow2_bits_low by lia. reflexivity.
    - rewrite Z.mod_pow2_bits_high by lia. reflexivity. }
  assert (R : 0 <= x mod 2 ^ Z.of_nat dw < 2 ^ Z.of_nat dw) by (apply Z.mod_pos_bound, Z.pow_pos_nonneg; lia).
  assert (L : lead_one dw x = lead_one dw (x mod 2 ^ Z.of_nat dw)).
  { unfold lead_one. clear - MB. set (y := x mod _) in *. clearbody y.
    set (g := fun j : nat => trunc (bits_for (Z.of_nat dw - 1)) (Z.of_nat dw - Z.of_nat j - 1)).
    change (fold_left (fun acc j => if Z.testbit x (Z.of_nat j) then g j else acc) (seq 0 dw) 0 =
            fold_left (fun acc j => if Z.testbit y (Z.of_nat j) then g j else acc) (seq 0 dw) 0). clearbody g.
    assert (IN : forall j, In j (seq 0 dw) -> (j < dw)%nat) by (intros j Hj; apply in_seq in Hj; lia).
    revert IN. generalize (seq 0 dw) as l, 0 as a. induction l as [|j l IH]; intros a IN; [reflexivity|].
    cbn [fold_left]. rewrite MB. assert (J : (j < dw)%nat) by (apply IN; left; reflexivity).
    destruct (Z.ltb_spec (Z.of_nat j) (Z.of_nat dw)); [|lia]. cbn [andb]. apply IH. intros k Hk. apply IN. right. exact Hk. }
  set (y := x mod 2 ^ Z.of_nat dw) in *. assert (TY : Z.testbit y p = true) by (rewrite MB, T; destruct (Z.ltb_spec p (Z.of_nat dw)); [reflexivity|lia]).
  assert (Y0 : 0 < y) by (destruct (Z.eq_dec y 0) as [E | E]; [rewrite E, Z.testbit_0_l in TY; discriminate|lia]).
  rewrite L, lead_one_log2 by lia. assert (LG : Z.log2 y = p); [|lia].
  pose proof (Z.bit_log2 y Y0) as B. rewrite MB in B. apply andb_prop in B as [B1 B2]. apply Z.ltb_lt in B1.
  destruct (Z.lt_trichotomy (Z.log2 y) p) as [Q | [Q | Q]]; [|exact Q|].
  - rewrite Z.bits_above_log2 in TY by lia. discriminate.
  - rewrite Z0 in B2 by lia. discriminate.
Qed.
Theorem C49_zero : forall (dw : nat), lead_one dw 0 = 0.
Proof. exact lead_one_0. Qed.
Example C49_ex : lead_one 12 (2 ^ 5 + 3) = 6 /\ lead_one 22 1 = 21.
Proof. split; reflexivity. Qed.

(** * C47: half to pixel *)
(** Below 1.0 the pixel is exactly the truncated one; 1.0 itself is the missing case. *)
Theorem C47_pixel_partial : forall i n,
  (length (fp3_outputs i n) <= length (fp3_inputs i n) <= length (fp3_outputs i n) + 2)%nat /\
  forall j, (j < length (fp3_outputs i n))%nat ->
    let '(x, y, z) := nth j (fp3_inputs i n) (0, 0, 0) in
    let '(r, g, b) := nth j (fp3_outputs i n) (0, 0, 0) in
    (0 <= x < 15360 -> r = Z.min 255 (hval x / 2 ^ 16)) /\
    (0 <= y < 15360 -> g = Z.min 255 (hval y / 2 ^ 16)) /\
    (0 <= z < 15360 -> b = Z.min 255 (hval z / 2 ^ 16)).
Proof.
  assert (V : forall x, 0 <= x < 15360 -> fp_fun x = Z.min 255 (hval x / 2 ^ 16)).
  { intros x Hx. rewrite fp_floor by exact Hx.
    assert (hval x / 2 ^ 16 < 256); [|lia]. apply Z.div_lt_upper_bound; [lia|]. change (2 ^ 16 * 256) with (2 ^ 24).
    rewrite hval_mant by lia. assert (F : finite x) by (unfold finite; lia).
    destruct (fields x F) as (_ & _ & D & _ & _ & M & _).
    assert (x / 1024 < 15) by (apply Z.div_lt_upper_bound; lia).
    assert (2 ^ (expo x - 1) <= 2 ^ 13) by (apply Z.pow_le_mono_r; unfold expo; lia).
    change (2 ^ 13) with 8192 in *. change (2 ^ 24) with 16777216. nia. }
  intros i n.
  set (f := fun '(x, y, z) => (fp_fun x, fp_fun y, fp_fun z)).
  destruct (pa_stream _ _ _ (three fp_step) (three_out fp_pix) fp3_init fp_latency ltac:(unfold fp_latency; lia) i f)
    with (n := n) as [rest [E L]].
  { intros [[a b] c] [[x y] z] ys HL. destruct ys as [|[[u v] w] [|? ?]]; try discriminate HL. reflexivity. }
  fold (fp3_inputs i n) in E. fold (fp3_outputs i n) in E. unfold fp_latency in L.
  pose proof (f_equal (@length _) E) as EL. rewrite app_length, !map_length in EL. split; [lia|].
  intros j Hj.
  assert (O : nth j (fp3_outputs i n) (f (0, 0, 0)) = f (nth j (fp3_inputs i n) (0, 0, 0))).
  { rewrite <- (app_nth1 _ (map f rest) (f (0, 0, 0)) Hj), <- E. apply map_nth. }
  rewrite (nth_indep _ _ (f (0, 0, 0)) Hj), O.
  destruct (nth j (fp3_inputs i n) (0, 0, 0)) as [[x y] z]. unfold f. auto.
Qed.
(** Every encoding: the sign is ignored, and 1.0 and
    everything above it, infinities and NaNs included, become black. *)
Definition shown (x : Z) : Z := let m := x mod 2 ^ 15 in if m <? 15360 then hval m / 2 ^ 16 else 0.
Theorem C47_every_encoding_partial : forall i n j, (j < length (fp3_outputs i n))%nat ->
  let '(x, y, z) := nth j (fp3_inputs i n) (0, 0, 0) in
  nth j (fp3_outputs i n) (0, 0, 0) = (shown x, shown y, shown z).
Proof.
  assert (V : forall x, fp_fun x = shown x).
  { intros x. assert (E1 : fp_fun x = fp_fun (x mod 2 ^ 15)).
    { unfold fp_fun. cbn [fold_left fp_step fp_pix fp_frac fp_off]. unfold slice. change (2 ^ 15) with (1024 * 32). change (2 ^ 10) with 1024. change (2 ^ 5) with 32. change (2 ^ 0) with 1.
      rewrite !Z.div_1_r, (Z.rem_mul_r x 1024 32) by lia.
      replace (x mod 1024 + 1024 * ((x / 1024) mod 32)) with (x mod 1024 + ((x / 1024) mod 32) * 1024) by ring.
      rewrite Z.div_add, Z.mod_add, (Z.div_small (x mod 1024)), Z.add_0_l, !Z.mod_mod by (try apply Z.mod_pos_bound; lia). reflexivity. }
    rewrite E1. unfold shown. cbv zeta. assert (M := Z.mod_pos_bound x (2 ^ 15) ltac:(lia)). set (m := x mod 2 ^ 15) in *. clearbody m. clear E1.
    destruct (Z.ltb_spec m 15360) as [LT|GE]; [apply fp_floor; lia|]. change (2 ^ 15) with 32768 in M.
    unfold fp_fun. cbn [fold_left fp_step fp_pix fp_frac fp_off]. unfold slice. change (2 ^ 10) with 1024. change (2 ^ 5) with 32. change (2 ^ 0) with 1. rewrite Z.div_1_r.
    assert (D : 15 <= m / 1024 < 32) by (split; [apply Z.div_le_lower_bound; lia|apply Z.div_lt_upper_bound; lia]).
    rewrite (Z.mod_small (m / 1024) 32) by lia. assert (O : trunc 5 (15 - m / 1024 - 1) = 46 - m / 1024).
    { unfold trunc. change (2 ^ 5) with 32. symmetry. apply (Z.mod_unique _ _ (-1)); lia. }
    rewrite O. assert (F := Z.mod_pos_bound m 1024 ltac:(lia)).
    assert (P : 2 ^ 15 <= 2 ^ (46 - m / 1024)) by (apply Z.pow_le_mono_r; lia). change (2 ^ 15) with 32768 in P.
    rewrite (Z.div_small (m mod 1024 + 1024)) by lia. reflexivity. }
  intros i n.
  set (f := fun '(x, y, z) => (fp_fun x, fp_fun y, fp_fun z)).
  destruct (pa_stream _ _ _ (three fp_step) (three_out fp_pix) fp3_init fp_latency ltac:(unfold fp_latency; lia) i f)
    with (n := n) as [rest [E L]].
  { intros [[a b] c] [[x y] z] ys HL. destruct ys as [|[[u v] w] [|? ?]]; try discriminate HL. reflexivity. }
  fold (fp3_inputs i n) in E. fold (fp3_outputs i n) in E.
  intros j Hj.
  assert (O : nth j (fp3_outputs i n) (f (0, 0, 0)) = f (nth j (fp3_inputs i n) (0, 0, 0))).
  { rewrite <- (app_nth1 _ (map f rest) (f (0, 0, 0)) Hj), <- E. apply map_nth. }
  rewrite (nth_indep _ _ (f (0, 0, 0)) Hj), O.
  destruct (nth j (fp3_inputs i n) (0, 0, 0)) as [[x y] z]. unfold f. rewrite !V. reflexivity.
Qed.
Print Assumptions C47_every_encoding_partial.
Example C47_shown_ex : shown 15360 = 0 /\ shown (15359 + 2 ^ 15) = 255 /\ shown 31744 = 0.
Proof. vm_compute. auto. Qed.
Theorem C47_one_refuted : exists i n x,
  In (x, x, x) (fp3_inputs i n) /\ x = 15360 /\ hval x = 2 ^ 24 /\ fp3_outputs i n = [(0, 0, 0)].
Proof.
  exists (fun _ => Build_pa_in _ true (15360, 15360, 15360) true), 3%nat, 15360. vm_compute. auto.
Qed.
Example C47_ex : fp_fun 15359 = 255 /\ fp_fun 14336 = 128 /\ fp_fun 7168 = 1 /\ fp_fun 7167 = 0.
Proof. vm_compute. auto. Qed.

(** * C48: pixel to half *)
Definition all_pixels_ok : bool :=
  forallb (fun p => let o := nth (Z.to_nat p) pix_lut 0 in
                    (0 <=? o) && (o <? 15360) && (hval o =? p * 2 ^ 16)) (zrange 0 256).
(** The lookup implementation: [lu_latency] clocks later the output is exact for every pixel,
    whatever its register held, and the conversion back gives the pixel. *)
Theorem C48_lookup_partial : forall (i : nat -> Z) s0 n s' y, 0 <= i n < 256 ->
  let o := lu_out (at_ lu_step s0 i (n + lu_latency)) in
  finite o /\ hval o = i n * 2 ^ 16 /\ fp_pix (fold_left fp_step [o; y] s') = i n.
Proof.
  intros i s0 n s' y. unfold lu_latency. rewrite Nat.add_1_r. change (at_ lu_step s0 i (S n)) with (lu_step (at_ lu_step s0 i n) (i n)).
  set (s := at_ lu_step s0 i n). set (p := i n). intros Hp. cbv zeta. rewrite fp_pure. rewrite lu_pure by exact Hp.
  assert (A : all_pixels_ok = true) by (vm_compute; reflexivity).
  pose proof (forallb_zrange _ _ _ A p ltac:(lia)) as B. cbv beta zeta in B.
  set (q := nth (Z.to_nat p) pix_lut 0) in *. apply andb_prop in B as [B V]. apply andb_prop in B as [B1 B2].
  apply Z.leb_le in B1. apply Z.ltb_lt in B2. apply Z.eqb_eq in V. split; [unfold finite; lia|]. split; [exact V|].
  rewrite fp_floor by lia. rewrite V. apply Z.div_mul. lia.
Qed.
Example C48_lookup_ex : lu_out (lu_step lu_init 200) = 14912 /\ fp_fun 14912 = 200.
Proof. vm_compute. auto. Qed.

(** The datapath of the RGB actor: the three channels in order, through any handshake. *)
Lemma px3_stream : forall i n, exists rest,
  map (fun '(x, y, z) => (px_fun x, px_fun y, px_fun z)) (px3_inputs i n) =
    px3_outputs i n ++ map (fun '(x, y, z) => (px_fun x, px_fun y, px_fun z)) rest /\ (length rest <= 2)%nat.
Proof.
  intros i n.
  apply (pa_stream _ _ _ (three px_step) (three_out px_out) px3_init px_latency ltac:(unfold px_latency; lia) i).
  intros [[a b] c] [[x y] z] ys HL. destruct ys as [|[[u v] w] [|? ?]]; try discriminate HL. reflexivity.
Qed.
(** Every pixel is converted to a negative half with a wrong magnitude. *)
Theorem C48_datapath_refuted : forall i n x y z, In (x, y, z) (px3_outputs i n) ->
  (forall m, let '(a, b, c) := pai_data _ (i m) in 0 <= a < 256 /\ 0 <= b < 256 /\ 0 <= c < 256) ->
  sval x < 0 /\ sval y < 0 /\ sval z < 0.
Proof.
  assert (A : forallb (fun p => sval (px_fun p) <? 0) (zrange 0 256) = true) by (vm_compute; reflexivity).
  assert (A' : forall p, 0 <= p < 256 -> sval (px_fun p) < 0).
  { intros p Hp. apply Z.ltb_lt. exact (forallb_zrange _ _ _ A p ltac:(lia)). }
  intros i n x y z HI HD. destruct (px3_stream i n) as [rest [E _]].
  assert (J : In (x, y, z) (map (fun '(x, y, z) => (px_fun x, px_fun y, px_fun z)) (px3_inputs i n))) by (rewrite E; apply in_or_app; left; exact HI).
  apply in_map_iff in J as [[[a b] c] [EQ J]]. injection EQ as <- <- <-.
  assert (R : 0 <= a < 256 /\ 0 <= b < 256 /\ 0 <= c < 256).
  { unfold px3_inputs, pa_inputs in J. clear - J HD. revert J. generalize 0%nat as k. induction n as [|n IH]; intros k J; [destruct J|].
    cbn [collect] in J. apply in_app_or in J as [J | J]; [exact (IH k J)|].
    unfold pa_in_event in J. destruct (_ && _); [|destruct J]. destruct J as [J | []]. specialize (HD (k + n)%nat). rewrite J in HD. exact HD. }
  destruct R as (Ra & Rb & Rc). auto.
Qed.
(** What it delivers instead, for a pixel [p] whose most significant one is bit [k]: sign set, an
    exponent that is 4 too small, and a fraction of which the four most significant bits are lost. *)
Definition px_actual (p : Z) : Z := let k := Z.log2 p in 32768 + 1024 * (k + 7 - 4) + ((p - 2 ^ k) * 2 ^ (10 - k) * 2 ^ 4) mod 1024.
Theorem C48_datapath_actual : forall i n,
  (length (px3_outputs i n) <= length (px3_inputs i n) <= length (px3_outputs i n) + 2)%nat /\
  forall j, (j < length (px3_outputs i n))%nat ->
    let '(x, y, z) := nth j (px3_inputs i n) (0, 0, 0) in
    let '(r, g, b) := nth j (px3_outputs i n) (0, 0, 0) in
    (0 < x < 256 -> r = px_actual x) /\ (0 < y < 256 -> g = px_actual y) /\ (0 < z < 256 -> b = px_actual z).
Proof.
  assert (A : forallb (fun p => px_fun p =? px_actual p) (zrange 1 255) = true) by (vm_compute; reflexivity).
  assert (A' : forall p, 0 < p < 256 -> px_fun p = px_actual p).
  { intros p Hp. apply Z.eqb_eq. exact (forallb_zrange _ _ _ A p ltac:(lia)). }
  intros i n. destruct (px3_stream i n) as [rest [E L]].
  set (f := fun '(x, y, z) => (px_fun x, px_fun y, px_fun z)) in E.
  pose proof (f_equal (@length _) E) as EL. rewrite app_length, !map_length in EL. split; [lia|]. intros j Hj.
  assert (O : nth j (px3_outputs i n) (f (0, 0, 0)) = f (nth j (px3_inputs i n) (0, 0, 0))).
  { rewrite <- (app_nth1 _ (map f rest) (f (0, 0, 0)) Hj), <- E. apply map_nth. }
  rewrite (nth_indep _ _ (f (0, 0, 0)) Hj), O.
  destruct (nth j (px3_inputs i n) (0, 0, 0)) as [[x y] z]. unfold f. auto.
Qed.
Example C48_actual_ex : px_actual 200 = 43008 /\ nth 200 pix_lut 0 = 14912. Proof. vm_compute. auto. Qed.
Theorem C48_zero_refuted : exists i n, px3_outputs i n = [(47104, 47104, 47104)] /\ hd_error (px3_inputs i n) = Some (0, 0, 0) /\ sval 47104 = - 2 ^ 23.
Proof. exists (fun _ => Build_pa_in _ true (0, 0, 0) true), 3%nat. vm_compute. auto. Qed.

(** * C51: adder *)
Definition fa_ok (x : fpair) (r : Z) : Prop :=
  finite r /\ rounds_down r (hval (f_a x) + hval (f_b x)) 1.
Theorem C51_sum_partial : forall i n,
  (length (fa_outputs i n) <= length (fa_inputs i n) <= length (fa_outputs i n) + 5)%nat /\
  forall j, (j < length (fa_outputs i n))%nat ->
    let x := nth j (fa_inputs i n) zero_pair in
    finite (f_a x) -> finite (f_b x) ->
    (* the second operand is normal, or it is zero and the first is normal *)
    1024 <= f_b x \/ (1024 <= f_a x /\ f_b x = 0) ->
    hval (f_a x) + hval (f_b x) < 2 ^ 40 ->
    fa_ok x (nth j (fa_outputs i n) 0).
Proof.
  intros i n.
  destruct (pa_stream _ _ _ fa_step fa_out fa_init fa_latency ltac:(unfold fa_latency; lia) i fa_fun) with (n := n) as [rest [E L]].
  { intros s x ys HL. destruct ys as [|a [|b [|c [|d [|? ?]]]]]; try discriminate HL. apply fa_pure. }
  fold (fa_inputs i n) in E. fold (fa_outputs i n) in E. unfold fa_latency in L.
  pose proof (f_equal (@length _) E) as EL. rewrite app_length, !map_length in EL. split; [lia|].
  intros j Hj x FA FB C HX. assert (V : nth j (fa_outputs i n) 0 = fa_fun x).
  { rewrite <- (app_nth1 _ (map fa_fun rest) 0 Hj), <- E.
    rewrite (nth_indep _ 0 (fa_fun zero_pair)) by (rewrite map_length; lia). apply map_nth. }
  rewrite V. apply fa_sum_ok; assumption.
Qed.
(** Zero plus zero is not zero. *)
Theorem C51_zero_refuted : exists i n, hd_error (fa_inputs i n) = Some zero_pair /\ fa_outputs i n = [2048] /\ hval 2048 = 2048.
Proof. exists (fun _ => Build_pa_in _ true zero_pair true), 6%nat. vm_compute. auto. Qed.
(** A normal number plus a subnormal one: 2^-14 + 2^-15 gives 1.25 * 2^-14 instead of 1.5 * 2^-14,
    more than two units in the last place away, and differs from the sum of the swapped operands. *)
Theorem C51_subnormal_refuted : exists i n x, hd_error (fa_inputs i n) = Some x /\
  f_a x = 1024 /\ f_b x = 512 /\ finite (f_a x) /\ finite (f_b x) /\
  fa_outputs i n = [1280] /\ hval 1280 + 2 < hval (f_a x) + hval (f_b x) /\
  (let j := fun _ : nat => Build_pa_in _ true {| f_a := f_b x; f_b := f_a x |} true in fa_outputs j 6 = [1536]) /\ hval 1536 = hval (f_a x) + hval (f_b x).
Proof.
  exists (fun _ => Build_pa_in _ true {| f_a := 1024; f_b := 512 |} true), 6%nat, {| f_a := 1024; f_b := 512 |}.
  vm_compute. repeat split; congruence.
Qed.
(** The remaining operands, exactly: a subnormal (or zero) second operand counts half, and two subnormals whose
    sum, taken that way, is below 2^-14 always give a wrong result. *)
Theorem C51_second_subnormal_partial : forall i n j, (j < length (fa_outputs i n))%nat ->
  let x := nth j (fa_inputs i n) zero_pair in let r := nth j (fa_outputs i n) 0 in
  finite (f_a x) -> 0 <= f_b x < 1024 ->
  (1024 <= f_a x \/ 1024 <= f_a x + f_b x / 2 -> hval (f_a x) + f_b x / 2 < 2 ^ 40 ->
     finite r /\ rounds_down r (hval (f_a x) + f_b x / 2) 1) /\
  (f_a x + f_b x / 2 < 1024 -> ~ fa_ok x r).
Proof.
  intros i n j Hj x r FA FB.
  destruct (pa_stream _ _ _ fa_step fa_out fa_init fa_latency ltac:(unfold fa_latency; lia) i fa_fun) with (n := n) as [rest [E L]].
  { intros s y ys HL. destruct ys as [|a [|b [|c [|d [|? ?]]]]]; try discriminate HL. apply fa_pure. }
  fold (fa_inputs i n) in E. fold (fa_outputs i n) in E.
  pose proof (f_equal (@length _) E) as EL. rewrite app_length, !map_length in EL.
  assert (V : r = fa_fun x).
  { unfold r. rewrite <- (app_nth1 _ (map fa_fun rest) 0 Hj), <- E.
    rewrite (nth_indep _ 0 (fa_fun zero_pair)) by (rewrite map_length; lia). apply map_nth. }
  rewrite V. unfold fa_ok. apply fa_second_subnormal; assumption.
Qed.
(** A stalled stream of sums. *)
Definition ex_fa (t : nat) : pa_in fpair :=
  Build_pa_in _ (negb (t =? 2)%nat) {| f_a := 15360; f_b := 14336 + 128 * Z.of_nat t |} (Nat.odd t).
Example C51_ex : fa_outputs ex_fa 20 = [15872; 15936; 16064; 16128; 16192; 16320; 16384; 16448] /\
  map hval (fa_outputs ex_fa 20) = firstn 8 (map (fun x => hval (f_a x) + hval (f_b x)) (fa_inputs ex_fa 20)).
Proof. vm_compute. auto. Qed.
(** Subnormal second operands, with stalls: the halved sums come out; two small subnormals give nonsense. *)
Definition ex_fs (t : nat) : pa_in fpair :=
  Build_pa_in _ (negb (t =? 2)%nat) {| f_a := 900 + 200 * Z.of_nat t; f_b := 100 * Z.of_nat t |} (Nat.odd t).
Example C51_ex_subnormal :
  map (fun x => (f_a x, f_b x)) (firstn 3 (fa_inputs ex_fs 16)) = [(900, 0); (1100, 100); (1500, 300)] /\
  firstn 3 (fa_outputs ex_fs 16) = [776; 1150; 1650] /\ map hval [776; 1150; 1650] = [776; 1150; 1650] /\
  fa_outputs (fun _ => Build_pa_in _ true {| f_a := 500; f_b := 200 |} true) 6 = [176].
Proof. vm_compute. auto. Qed.

(** * C50: multiplier *)
(** The stream: a slot is a clock with the pipeline enabled; the result of a valid slot is
    computed from its pair and the pair of the next slot. *)
Lemma fm_at : forall (xs : list fpair) j, (j + 5 <= length xs)%nat ->
  fm_out (fold_left fm_step (firstn (j + 5) xs) fm_init) = fm_fun (nth j xs zero_pair) (nth (S j) xs zero_pair).
Proof.
  intros xs j H.
  assert (E : firstn (j + 5) xs = firstn j xs ++ [nth j xs zero_pair; nth (S j) xs zero_pair; nth (j + 2) xs zero_pair; nth (j + 3) xs zero_pair; nth (j + 4) xs zero_pair]).
  { assert (N : forall k m (l : list fpair), (m + k <= length l)%nat -> firstn (m + k) l = firstn m l ++ map (fun u => nth (m + u) l zero_pair) (seq 0 k)).
    { induction k as [|k IH]; intros m l Hl; [cbn [seq map]; rewrite Nat.add_0_r, app_nil_r; reflexivity|].
      rewrite seq_S, map_app, app_assoc, <- IH by lia. cbn [map plus]. rewrite Nat.add_succ_r.
      assert (G : forall q (l : list fpair), (q < length l)%nat -> firstn (S q) l = firstn q l ++ [nth q l zero_pair]).
      { clear. induction q as [|q IH]; intros [|a l] H; cbn [length] in H; try lia; [reflexivity|].
        cbn [firstn app nth]. f_equal. rewrite <- IH by lia. reflexivity. }
      apply G. lia. }
    rewrite N by exact H. cbn [seq map]. rewrite Nat.add_0_r, Nat.add_1_r. reflexivity. }
  rewrite E, fold_left_app. apply fm_mixed.
Qed.

Definition fm_slots i n := pa_slots _ _ fm_step fm_init fm_latency i n.
Definition in_range (x : fpair) : Prop :=
  let P := hval (f_a x) * hval (f_b x) in
  (* zero, or at least 2^-13 and below 65536; smaller normal products and subnormal ones
     with exponents summing to at most 15 are also right *)
  P = 0 \/ 2 ^ 35 <= P < 2 ^ 64 \/ (P < 2 ^ 34 /\ Z.max 1 (f_a x / 1024) + Z.max 1 (f_b x / 1024) <= 15).
Definition fm_ok (x : fpair) (r : Z) : Prop :=
  finite r /\ rounds_down r (hval (f_a x) * hval (f_b x)) (2 ^ 24).

(** Every delivered word belongs to a valid slot, in order; it is the truncated product when the
    slot after it carries the same operands. *)
Theorem C50_product_partial : forall i n, exists js,
  js = filter (fun j => fst (nth j (fm_slots i n) (false, zero_pair))) (seq 0 (length (fm_slots i n) - 5)) /\
  length (fm_outputs i n) = length js /\
  forall k, (k < length js)%nat ->
    let j := nth k js 0%nat in
    let x := snd (nth j (fm_slots i n) (false, zero_pair)) in
    nth k (fm_inputs i n) zero_pair = x /\
    (snd (nth (S j) (fm_slots i n) (false, zero_pair)) = x ->
     finite (f_a x) -> finite (f_b x) -> in_range x -> fm_ok x (nth k (fm_outputs i n) 0)) /\
    (snd (nth (S j) (fm_slots i n) (false, zero_pair)) = x ->
     finite (f_a x) -> finite (f_b x) -> ~ in_range x ->
     let P := hval (f_a x) * hval (f_b x) in P < 2 ^ 35 ->
     (* otherwise the result is wrong: zero, or the product less 2^-14 *)
     nth k (fm_outputs i n) 0 =
       (if Z.max 1 (f_a x / 1024) + Z.max 1 (f_b x / 1024) <=? 15 then P / 2 ^ 24 - 1024 else 0) /\
     ~ fm_ok x (nth k (fm_outputs i n) 0)).
Proof.
  intros i n. set (sl := fm_slots i n). set (d := (false, zero_pair)).
  exists (filter (fun j => fst (nth j sl d)) (seq 0 (length sl - 5))). split; [reflexivity|].
  set (js := filter _ _).
  assert (EO : fm_outputs i n = map (fun j => fm_fun (snd (nth j sl d)) (snd (nth (S j) sl d))) js).
  { unfold fm_outputs. rewrite (pa_outputs_general _ _ _ fm_step fm_out fm_init fm_latency ltac:(unfold fm_latency; lia) i n).
    fold (fm_slots i n). fold sl. unfold fm_latency, js.
    rewrite (filter_ext (fun j => nth j (map fst sl) false) (fun j => fst (nth j sl d))).
    2:{ intros j. exact (map_nth fst sl d j). }
    apply map_ext_in. intros j Hj. apply filter_In in Hj as [Hj _]. apply in_seq in Hj.
    rewrite fm_at by (rewrite map_length; lia). rewrite <- !(map_nth snd sl d). reflexivity. }
  assert (EI : exists more, fm_inputs i n = map (fun j => snd (nth j sl d)) js ++ more).
  { unfold fm_inputs. rewrite pa_inputs_slots. fold (fm_slots i n). fold sl.
    exists (map snd (filter fst (skipn (length sl - 5) sl))).
    rewrite <- (firstn_skipn (length sl - 5) sl) at 1. rewrite filter_app, map_app. f_equal.
    unfold js. assert (G : forall k, (k <= length sl)%nat -> map snd (filter fst (firstn k sl)) = map (fun j => snd (nth j sl d)) (filter (fun j => fst (nth j sl d)) (seq 0 k))).
    { induction k as [|k IH]; intros Hk; [reflexivity|]. rewrite seq_S, filter_app, map_app, <- IH by lia. cbn [plus filter].
      assert (F : firstn (S k) sl = firstn k sl ++ [nth k sl d]).
      { clear - Hk. revert Hk. generalize sl as l. clear. induction k as [|k IH]; intros [|a l] H; cbn [length] in H; try lia; [reflexivity|].
        cbn [firstn app nth]. f_equal. rewrite <- IH by lia. reflexivity. }
      rewrite F, filter_app, map_app. f_equal. cbn [filter]. destruct (fst (nth k sl d)); reflexivity. }
    apply G. lia. }
  split; [rewrite EO, map_length; reflexivity|]. intros k Hk j x.
  assert (EK : snd (nth (S j) sl d) = x -> nth k (fm_outputs i n) 0 = fm_fun x x).
  { intros NX. rewrite EO.
    rewrite (nth_indep _ 0 (fm_fun (snd (nth 0 sl d)) (snd (nth 1 sl d)))) by (rewrite map_length; exact Hk).
    rewrite (map_nth (fun j => fm_fun (snd (nth j sl d)) (snd (nth (S j) sl d))) js 0%nat k).
    fold j. rewrite NX. reflexivity. }
  split; [|split].
  - destruct EI as [more ->]. rewrite app_nth1 by (rewrite map_length; exact Hk).
    rewrite (nth_indep _ _ (snd (nth 0 sl d))) by (rewrite map_length; exact Hk).
    exact (map_nth (fun j => snd (nth j sl d)) js 0%nat k).
  - intros NX FA FB R. rewrite (EK NX). apply fm_product; [exact FA|exact FB|].
    destruct R as [R | [R | [R1 R2]]]; [left; exact R|right; left; exact R|right; right; split; [exact R1|]]. unfold pexp, expo. lia.
  - intros NX FA FB R P PH. rewrite (EK NX). clear - FA FB R PH. unfold in_range in R. cbv zeta in R. fold P in R.
    assert (NA : f_a x <> 0) by (intros Z0; apply R; left; unfold P; rewrite Z0; reflexivity).
    assert (NB : f_b x <> 0) by (intros Z0; apply R; left; unfold P; rewrite Z0, Z.mul_0_r; reflexivity).
    destruct (fm_small x FA FB NA NB PH) as [S1 S2]. fold P in S1, S2. unfold pexp, expo in S1, S2. unfold fm_ok. fold P.
    destruct (Z.leb_spec (Z.max 1 (f_a x / 1024) + Z.max 1 (f_b x / 1024)) 15) as [L|L].
    + assert (PL : 2 ^ 34 <= P) by (destruct (Z.lt_ge_cases P (2 ^ 34)) as [Q|Q]; [exfalso; apply R; right; right; split; assumption|exact Q]).
      destruct (S1 ltac:(lia) PL) as [-> B]. split; [reflexivity|]. intros [_ [_ RD]]. clear S1 S2.
      assert (H : hval (P / 2 ^ 24 - 1024 + 1) <= 1024).
      { set (z := P / 2 ^ 24 - 1024) in *. destruct (Z.eq_dec z 1023) as [-> |N]; [vm_compute; congruence|].
        unfold hval. cbv zeta. rewrite Z.div_small by lia. cbn [Z.eqb]. rewrite Z.mod_small by lia. lia. }
      assert (hval (P / 2 ^ 24 - 1024 + 1) * 2 ^ 24 <= 2 ^ 34) by (change (2 ^ 34) with (1024 * 2 ^ 24); apply Z.mul_le_mono_nonneg_r; [lia|exact H]). lia.
    + destruct (S2 ltac:(lia)) as [-> B]. split; [reflexivity|]. intros [_ [_ RD]]. assert (H : hval (0 + 1) = 1) by reflexivity. rewrite H in RD. lia.
Qed.
(** 1.0 * 1.0 followed by 2.0 * 1.5 in the next clock: the first result is 1.5. *)
Theorem C50_stream_refuted : exists i n x y, fm_inputs i n = x :: y :: skipn 2 (fm_inputs i n) /\
  x = {| f_a := 15360; f_b := 15360 |} /\ y = {| f_a := 16384; f_b := 15872 |} /\
  hval 15360 * hval 15360 = 2 ^ 48 /\ hd_error (fm_outputs i n) = Some 15872 /\ ~ fm_ok x 15872.
Proof.
  exists (fun t => Build_pa_in _ true (if (t =? 0)%nat then {| f_a := 15360; f_b := 15360 |} else {| f_a := 16384; f_b := 15872 |}) true), 6%nat,
    {| f_a := 15360; f_b := 15360 |}, {| f_a := 16384; f_b := 15872 |}.
  repeat split; try (vm_compute; reflexivity). intros [_ [H _]]. vm_compute in H. apply H. reflexivity.
Qed.
(** Even with constant operands, products between 2^-14 and 2^-13 can lose their exponent: 1.5*2^-7 * 1.5*2^-8. *)
Theorem C50_constant_refuted : exists x, finite (f_a x) /\ finite (f_b x) /\
  2 ^ 34 <= hval (f_a x) * hval (f_b x) < 2 ^ 35 /\
  (let i := fun _ : nat => Build_pa_in _ true x true in fm_outputs i 6 = [128]) /\ ~ fm_ok x 128.
Proof.
  exists {| f_a := 8 * 1024 + 512; f_b := 7 * 1024 + 512 |}. unfold finite. cbn [f_a f_b].
  split; [lia|]. split; [lia|]. split; [vm_compute; split; congruence|]. split; [vm_compute; reflexivity|].
  intros [_ [_ H]]. vm_compute in H. discriminate H.
Qed.
Definition ex_fm (t : nat) : pa_in fpair :=
  Build_pa_in _ (Nat.even t) {| f_a := 15872; f_b := 15360 + 64 * Z.of_nat (t / 2) |} true.
(** One times 2^-15 gives zero. *)
Example C50_ex_one : (let i := fun _ : nat => Build_pa_in _ true {| f_a := 15360; f_b := 512 |} true in fm_outputs i 6 = [0]) /\
  ~ in_range {| f_a := 15360; f_b := 512 |} /\ hval 15360 * hval 512 = 512 * 2 ^ 24.
Proof. split; [vm_compute; reflexivity|]. split; [|vm_compute; reflexivity]. intros [H|[[H _]|[_ H]]]; vm_compute in H; congruence || (apply H; reflexivity). Qed.
Example C50_ex : map hval (fm_outputs ex_fm 12) = firstn 4 (map (fun x => hval (f_a x) * hval (f_b x) / 2 ^ 24) (fm_inputs ex_fm 12)) /\
  length (fm_outputs ex_fm 12) = 4%nat.
Proof. vm_compute. auto. Qed.

(** * C69: signs *)
Definition abs16 (x : Z) : Z := x mod 32768.
Definition absp (x : fpair) : fpair := {| f_a := abs16 (f_a x); f_b := abs16 (f_b x) |}.
Definition abs_in (i : nat -> pa_in fpair) (t : nat) : pa_in fpair :=
  Build_pa_in _ (pai_valid _ (i t)) (absp (pai_data _ (i t))) (pai_ready _ (i t)).
Lemma abs_frac : forall x, f_frac (abs16 x) = f_frac x.
Proof.
  intros x. unfold f_frac, abs16, slice. rewrite Z.pow_0_r, !Z.div_1_r. change (2 ^ 10) with 1024. change 32768 with (1024 * 32).
  rewrite Z.rem_mul_r by lia. rewrite Z.add_comm, Z.mul_comm, Z.add_comm, Z.mod_add, Z.mod_mod by lia. reflexivity.
Qed.
Lemma abs_exp : forall x, f_exp (abs16 x) = f_exp x.
Proof.
  intros x. unfold f_exp, abs16, slice. change (2 ^ 10) with 1024. change (2 ^ 5) with 32. change 32768 with (1024 * 32).
  rewrite Z.rem_mul_r by lia. rewrite Z.mul_comm, Z.div_add by lia. rewrite Z.div_small by (apply Z.mod_pos_bound; lia).
  rewrite Z.add_0_l, Z.mod_mod by lia. reflexivity.
Qed.
Lemma pa_run_ext : forall (St : Type) (dp : St -> fpair -> St) s0 L i n, (forall s x, dp s (absp x) = dp s x) ->
  pa_run St fpair dp s0 L (abs_in i) n = pa_run St fpair dp s0 L i n.
Proof.
  intros St dp s0 L i n H. induction n as [|n IH]; [reflexivity|].
  change (pa_run St fpair dp s0 L (abs_in i) (S n)) with (pa_step St fpair dp (pa_run St fpair dp s0 L (abs_in i) n) (abs_in i n)).
  rewrite IH. change (pa_run St fpair dp s0 L i (S n)) with (pa_step St fpair dp (pa_run St fpair dp s0 L i n) (i n)).
  unfold pa_step, pa_ce, pa_source_valid, abs_in. cbn [pai_valid pai_data pai_ready]. rewrite H. reflexivity.
Qed.
Lemma fm_abs : forall s x, fm_step s (absp x) = fm_step s x.
Proof. intros s x. unfold fm_step, f_mant, f_exp1. cbn [absp f_a f_b]. rewrite !abs_frac, !abs_exp. reflexivity. Qed.
Lemma fa_abs : forall s x, fa_step s (absp x) = fa_step s x.
Proof. intros s x. unfold fa_step, f_mant, f_exp1. cbn [absp f_a f_b]. rewrite !abs_frac, !abs_exp. reflexivity. Qed.
Lemma collect_ext' : forall (A : Type) (f g : nat -> option A) k n, (forall m, f m = g m) -> collect f k n = collect g k n.
Proof. intros A f g k n H. induction n as [|n IH]; [reflexivity|]. cbn [collect]. rewrite IH, H. reflexivity. Qed.
(** The results only depend on the magnitudes. *)
Theorem C69_signs_ignored_partial : forall i n,
  fm_outputs (abs_in i) n = fm_outputs i n /\ fa_outputs (abs_in i) n = fa_outputs i n.
Proof.
  intros i n. unfold fm_outputs, fa_outputs, pa_outputs. split; apply collect_ext'; intros m.
  - rewrite (pa_run_ext _ _ _ _ _ _ fm_abs). reflexivity.
  - rewrite (pa_run_ext _ _ _ _ _ _ fa_abs). reflexivity.
Qed.
(** 1.0 * (-1.0) = 1.0 and 1.0 + (-1.0) = 2.0. *)
Theorem C69_signed_refuted : exists x, sval (f_a x) = 2 ^ 24 /\ sval (f_b x) = - 2 ^ 24 /\
  (let i := fun _ : nat => Build_pa_in _ true x true in
   fm_outputs i 6 = [15360] /\ sval 15360 * 2 ^ 24 <> sval (f_a x) * sval (f_b x) /\
   fa_outputs i 6 = [16384] /\ sval 16384 <> sval (f_a x) + sval (f_b x)).
Proof. exists {| f_a := 15360; f_b := 48128 |}. vm_compute. repeat split; congruence. Qed.

Print Assumptions C47_pixel_partial.
Print Assumptions C47_one_refuted.
Print Assumptions C48_lookup_partial.
Print Assumptions C48_datapath_refuted.
Print Assumptions C48_zero_refuted.
Print Assumptions C48_datapath_actual.
Print Assumptions C49_leading_one.
Print Assumptions C49_zero.
Print Assumptions C50_product_partial.
Print Assumptions C50_stream_refuted.
Print Assumptions C50_constant_refuted.
Print Assumptions C51_sum_partial.
Print Assumptions C51_second_subnormal_partial.
Print Assumptions C51_zero_refuted.
Print Assumptions C51_subnormal_refuted.
Print Assumptions C69_signs_ignored_partial.
Print Assumptions C69_signed_refuted.
