(** C52-C54: test patterns. *)
From Coq Require Import ZArith List Bool Lia Arith.
From Verif Require Import Hdl Trace CscModel PatternModel.
Import ListNotations.
Open Scope nat_scope.

(** Clocks before [n] in which the consumer was ready (and parameters present). *)
Definition taken (i : nat -> pt_in) (n : nat) : nat := occurrences (fun m => pti_valid (i m) && pti_ready (i m)) 0 n.
Definition hres_is (i : nat -> pt_in) (hres : nat) : Prop := forall m, pti_hres (i m) = Z.of_nat hres.
Definition always_valid (i : nat -> pt_in) : Prop := forall m, pti_valid (i m) = true.
Definition always_ready (i : nat -> pt_in) : Prop := forall m, pti_ready (i m) = true.

Lemma taken_S : forall i n, taken i (S n) = taken i n + (if pti_valid (i n) && pti_ready (i n) then 1 else 0).
Proof. reflexivity. Qed.
Lemma taken_always : forall i, always_valid i -> always_ready i -> forall n, taken i n = n.
Proof. intros i V R. induction n as [|n IH]; [reflexivity|]. rewrite taken_S, V, R, IH. cbn. lia. Qed.

(** Colours in the order of the source, and the colour of bar [b mod 8]. *)
Definition bars : list rgb :=
  [{| c_r := 255; c_g := 255; c_b := 255 |}; {| c_r := 255; c_g := 255; c_b := 0 |};
   {| c_r := 0; c_g := 255; c_b := 255 |}; {| c_r := 0; c_g := 255; c_b := 0 |};
   {| c_r := 255; c_g := 0; c_b := 255 |}; {| c_r := 255; c_g := 0; c_b := 0 |};
   {| c_r := 0; c_g := 0; c_b := 255 |}; {| c_r := 0; c_g := 0; c_b := 0 |}]%Z.
Definition bar_spec (b : nat) : rgb := nth (b mod 8) bars black.

Lemma bar_colour_spec : forall b, b < 8 -> bar_colour (Z.of_nat b) = nth b bars black.
Proof. intros b H. do 8 (destruct b as [|b]; [reflexivity|]). lia. Qed.

Lemma nat_of_mod : forall a b, b <> 0 -> (a + 1) mod b = if a mod b =? b - 1 then 0 else a mod b + 1.
Proof.
  intros a b H. pose proof (Nat.mod_upper_bound a b H) as U. pose proof (Nat.div_mod a b H) as E.
  destruct (Nat.eqb_spec (a mod b) (b - 1)) as [Q | Q].
  - replace (a + 1) with ((a / b + 1) * b) by nia. apply Nat.mod_mul. exact H.
  - symmetry. apply (Nat.mod_unique _ _ (a / b)); lia.
Qed.
Lemma nat_of_div : forall a b, b <> 0 -> (a + 1) / b = a / b + (if a mod b =? b - 1 then 1 else 0).
Proof.
  intros a b H. pose proof (Nat.mod_upper_bound a b H) as U. pose proof (Nat.div_mod a b H) as E.
  destruct (Nat.eqb_spec (a mod b) (b - 1)) as [Q | Q].
  - replace (a + 1) with ((a / b + 1) * b) by nia. apply Nat.div_mul. exact H.
  - symmetry. apply (Nat.div_unique _ _ _ (a mod b + 1)); lia.
Qed.

(** * Colour bars *)
Section Bars.
Variables (i : nat -> pt_in) (hres : nat).
Hypothesis Hh : hres_is i hres.
Hypothesis Hr : 8 <= hres < 4096.
Let w := hres / 8.

Lemma w_range : 1 <= w <= 511.
Proof.
  unfold w. split; [apply Nat.div_le_lower_bound; lia|].
  assert (hres / 8 < 512) by (apply Nat.div_lt_upper_bound; lia). lia.
Qed.

Lemma slice_hres : forall n, (slice 3 9 (pti_hres (i n)) = Z.of_nat w)%Z.
Proof.
  intros n. rewrite Hh. unfold slice. change (2 ^ 3)%Z with (Z.of_nat 8). rewrite <- Nat2Z.inj_div.
  apply Z.mod_small. pose proof w_range. change (2 ^ 9)%Z with 512%Z. unfold w in *. lia.
Qed.

Lemma cb_at : forall n, cb_pix (cb_run i n) = Z.of_nat (taken i n mod w) /\
  cb_bar (cb_run i n) = Z.of_nat ((taken i n / w) mod 8).
Proof.
  pose proof w_range as W. induction n as [|n [IP IB]].
  - change (taken i 0) with 0. rewrite Nat.mod_small, Nat.div_small by lia. split; reflexivity.
  - change (cb_run i (S n)) with (cb_step (cb_run i n) (i n)). cbn [cb_step cb_pix cb_bar].
    rewrite slice_hres, IP, IB, taken_S. destruct (pti_valid (i n) && pti_ready (i n)); cbn [andb].
    2:{ rewrite !Nat.add_0_r. split; reflexivity. }
    pose proof (Nat.mod_upper_bound (taken i n) w ltac:(lia)) as U.
    assert (E : (Z.of_nat (taken i n mod w) =? Z.of_nat w - 1)%Z = (taken i n mod w =? w - 1)).
    { destruct (Z.eqb_spec (Z.of_nat (taken i n mod w)) (Z.of_nat w - 1)), (Nat.eqb_spec (taken i n mod w) (w - 1)); lia || reflexivity. }
    rewrite E, nat_of_mod, nat_of_div by lia. destruct (taken i n mod w =? w - 1) eqn:Q.
    + split; [reflexivity|]. unfold trunc. change (2 ^ 3)%Z with (Z.of_nat 8).
      replace (Z.of_nat ((taken i n / w) mod 8) + 1)%Z with (Z.of_nat ((taken i n / w) mod 8 + 1)) by lia.
      rewrite <- Nat2Z.inj_mod. f_equal. apply Nat.add_mod_idemp_l. lia.
    + split; [|rewrite Nat.add_0_r; reflexivity]. unfold trunc. rewrite Z.mod_small; [lia|].
      change (2 ^ 12)%Z with 4096%Z. apply Nat.eqb_neq in Q. lia.
Qed.

(** Colour on offer in clock [n+1]: the bar reached in clock [n]. *)
Lemma cb_rgb_at : forall n, cb_rgb (cb_run i (S n)) = bar_spec (taken i n / w).
Proof.
  intros n. change (cb_run i (S n)) with (cb_step (cb_run i n) (i n)). cbn [cb_step cb_rgb].
  rewrite (proj2 (cb_at n)). apply bar_colour_spec. apply Nat.mod_upper_bound. lia.
Qed.
End Bars.

Lemma cb_valid_at : forall i, always_valid i -> forall n, cb_valid (cb_run i (S n)) = true.
Proof.
  intros i V n. change (cb_run i (S n)) with (cb_step (cb_run i n) (i n)). cbn [cb_step cb_valid]. rewrite V. apply orb_true_r.
Qed.

(** Pixels accepted before clock [n]. *)
Definition cb_pixels (i : nat -> pt_in) (n : nat) : list rgb :=
  collect (fun m => pt_out (cb_valid (cb_run i m)) (cb_rgb (cb_run i m)) (i m)) 0 n.

Theorem C52_colour_bars : forall i hres, always_valid i -> always_ready i -> hres_is i hres -> 8 <= hres < 4096 ->
  forall n, cb_pixels i (n + 1) = map (fun k => bar_spec (k / (hres / 8))) (seq 0 n).
Proof.
  intros i hres V R H Hr. induction n as [|n IH].
  - cbn. unfold pt_out. cbn. reflexivity.
  - unfold cb_pixels in *. replace (S n + 1) with (S (n + 1)) by lia. cbn [collect plus].
    rewrite IH, seq_S, map_app. f_equal. unfold pt_out. rewrite R.
    replace (n + 1) with (S n) by lia. rewrite cb_valid_at by exact V. cbn [andb map plus].
    rewrite (cb_rgb_at i hres H Hr), taken_always by assumption. reflexivity.
Qed.

(** For a multiple of eight: pixel [x] of every line [y] is in bar [x / (hres/8)], so eight equal bars. *)
Theorem C52_lines : forall i w, always_valid i -> always_ready i -> hres_is i (8 * w) -> 1 <= w < 512 ->
  forall n x y, x < 8 * w -> y * (8 * w) + x < n ->
  nth (y * (8 * w) + x) (cb_pixels i (n + 1)) black = nth (x / w) bars black.
Proof.
  intros i w V R H Hw n x y Hx Hn. rewrite (C52_colour_bars i (8 * w) V R H) by lia.
  rewrite nth_map_seq by exact Hn. unfold bar_spec.
  replace (8 * w / 8) with w by (rewrite Nat.mul_comm, Nat.div_mul; lia).
  replace (y * (8 * w) + x) with (x + (y * 8) * w) by lia. rewrite Nat.div_add by lia.
  rewrite Nat.mod_add by lia. rewrite Nat.mod_small; [reflexivity|]. apply Nat.div_lt_upper_bound; lia.
Qed.

(** Lines shorter than eight pixels: the bar never changes. *)
Theorem C52_short_lines : forall i hres, hres_is i hres -> hres < 8 ->
  forall n, cb_rgb (cb_run i (S n)) = {| c_r := 255; c_g := 255; c_b := 255 |}.
Proof.
  intros i hres H Hr n.
  assert (I : forall n, cb_bar (cb_run i n) = 0%Z /\ (0 <= cb_pix (cb_run i n))%Z).
  { clear n. induction n as [|n [IB IP]]; [split; cbn; lia|].
    change (cb_run i (S n)) with (cb_step (cb_run i n) (i n)). cbn [cb_step cb_bar cb_pix].
    assert (E : (slice 3 9 (pti_hres (i n)) = 0)%Z).
    { rewrite H. unfold slice. rewrite Z.div_small by (change (2 ^ 3)%Z with 8%Z; lia). reflexivity. }
    rewrite E. replace (cb_pix (cb_run i n) =? 0 - 1)%Z with false by (symmetry; apply Z.eqb_neq; lia).
    rewrite andb_false_r. split; [exact IB|]. destruct (_ && _); [apply trunc_range; lia|exact IP]. }
  change (cb_run i (S n)) with (cb_step (cb_run i n) (i n)). cbn [cb_step cb_rgb]. rewrite (proj1 (I n)). reflexivity.
Qed.

(** * Vertical lines and dots *)
Definition par_colour (odd : bool) : rgb :=
  if odd then {| c_r := 255; c_g := 255; c_b := 255 |} else {| c_r := 0; c_g := 0; c_b := 0 |}.

Lemma vl_at : forall i n, vl_par (vl_run i n) = Nat.odd (taken i n).
Proof.
  induction n as [|n IH]; [reflexivity|]. change (vl_run i (S n)) with (vl_step (vl_run i n) (i n)). cbn [vl_step vl_par].
  rewrite IH, taken_S. destruct (_ && _); [|rewrite Nat.add_0_r; reflexivity].
  rewrite Nat.odd_add. change (Nat.odd 1) with true. destruct (Nat.odd _); reflexivity.
Qed.
Lemma vl_rgb_at : forall i, always_valid i -> forall n,
  vl_rgb (vl_run i (S n)) = par_colour (Nat.odd (taken i n)) /\ vl_valid (vl_run i (S n)) = true.
Proof.
  intros i V n. change (vl_run i (S n)) with (vl_step (vl_run i n) (i n)). cbn [vl_step vl_rgb vl_valid].
  rewrite V, vl_at, orb_true_r. split; reflexivity.
Qed.

Definition vl_pixels (i : nat -> pt_in) (n : nat) : list rgb :=
  collect (fun m => pt_out (vl_valid (vl_run i m)) (vl_rgb (vl_run i m)) (i m)) 0 n.

Theorem C54_vertical_lines_partial : forall i, always_valid i -> always_ready i ->
  forall n, vl_pixels i (n + 1) = map (fun k => par_colour (Nat.odd k)) (seq 0 n).
Proof.
  intros i V R. induction n as [|n IH]; [reflexivity|].
  unfold vl_pixels in *. replace (S n + 1) with (S (n + 1)) by lia. cbn [collect plus].
  rewrite IH, seq_S, map_app. f_equal. unfold pt_out. rewrite R. replace (n + 1) with (S n) by lia.
  destruct (vl_rgb_at i V n) as [E1 E2]. rewrite E1, E2, taken_always by assumption. reflexivity.
Qed.

Section Dots.
Variables (i : nat -> pt_in) (hres : nat).
Hypothesis Hh : hres_is i hres.
Hypothesis Hr : 1 <= hres < 4096.

(** Colour of the k-th pixel taken: column k mod hres, line k / hres.  The colour changes at
    every step except at the end of a line. *)
Definition dot_par (k : nat) : bool := Nat.odd (k mod hres + (k / hres) * (hres - 1)).

Lemma dt_at : forall n, dt_h (dt_run i n) = Z.of_nat (taken i n mod hres) /\ dt_par (dt_run i n) = dot_par (taken i n).
Proof.
  induction n as [|n [IH IP]].
  - change (taken i 0) with 0. unfold dot_par. rewrite Nat.mod_small, Nat.div_small by lia. split; reflexivity.
  - change (dt_run i (S n)) with (dt_step (dt_run i n) (i n)). cbn [dt_step dt_h dt_par].
    rewrite Hh, IH, IP, taken_S. destruct (pti_valid (i n) && pti_ready (i n)); cbn [andb].
    2:{ rewrite !Nat.add_0_r. split; reflexivity. }
    set (k := taken i n) in *. pose proof (Nat.mod_upper_bound k hres ltac:(lia)) as U.
    assert (E : (Z.of_nat (k mod hres) =? Z.of_nat hres - 1)%Z = (k mod hres =? hres - 1)).
    { destruct (Z.eqb_spec (Z.of_nat (k mod hres)) (Z.of_nat hres - 1)), (Nat.eqb_spec (k mod hres) (hres - 1)); lia || reflexivity. }
    rewrite E. unfold dot_par. rewrite nat_of_mod, nat_of_div by lia.
    destruct (Nat.eqb_spec (k mod hres) (hres - 1)) as [Q | Q]; cbn [negb].
    + split; [reflexivity|]. f_equal. rewrite Q. nia.
    + split; [unfold trunc; rewrite Z.mod_small; [lia|change (2 ^ 12)%Z with 4096%Z; lia]|].
      rewrite Nat.add_0_r. replace (k mod hres + 1 + k / hres * (hres - 1)) with (1 + (k mod hres + k / hres * (hres - 1))) by lia.
      rewrite (Nat.odd_add 1). change (Nat.odd 1) with true. destruct (Nat.odd _); reflexivity.
Qed.

Lemma dt_rgb_at : forall n, dt_rgb (dt_run i (S n)) = par_colour (dot_par (taken i n)).
Proof.
  intros n. change (dt_run i (S n)) with (dt_step (dt_run i n) (i n)). cbn [dt_step dt_rgb].
  rewrite (proj2 (dt_at n)). reflexivity.
Qed.
End Dots.

Definition dt_pixels (i : nat -> pt_in) (n : nat) : list rgb :=
  collect (fun m => pt_out (dt_valid (dt_run i m)) (dt_rgb (dt_run i m)) (i m)) 0 n.

Lemma dt_pixels_at : forall i hres, always_valid i -> always_ready i -> hres_is i hres -> 1 <= hres < 4096 ->
  forall n, dt_pixels i (n + 1) = map (fun k => par_colour (dot_par hres k)) (seq 0 n).
Proof.
  intros i hres V R H Hr. induction n as [|n IH]; [reflexivity|].
  unfold dt_pixels in *. replace (S n + 1) with (S (n + 1)) by lia. cbn [collect plus].
  rewrite IH, seq_S, map_app. f_equal. unfold pt_out. rewrite R. replace (n + 1) with (S n) by lia.
  rewrite (dt_rgb_at i hres H Hr), taken_always by assumption.
  change (dt_valid (dt_run i (S n))) with (dt_valid (dt_run i n) || pti_valid (i n)). rewrite V, orb_true_r. reflexivity.
Qed.

(** Even line length: a checkerboard. *)
Theorem C54_dots_even_partial : forall i hres, always_valid i -> always_ready i -> hres_is i hres -> 1 <= hres < 4096 ->
  Nat.even hres = true -> forall n x y, x < hres -> y * hres + x < n ->
  nth (y * hres + x) (dt_pixels i (n + 1)) black = par_colour (Nat.odd (x + y)).
Proof.
  intros i hres V R H Hr Hev n x y Hx Hn. rewrite (dt_pixels_at i hres V R H Hr), nth_map_seq by exact Hn.
  unfold par_colour, dot_par. replace (y * hres + x) with (x + y * hres) by lia.
  rewrite Nat.mod_add, Nat.div_add by lia. rewrite Nat.mod_small, Nat.div_small by exact Hx. cbn [plus].
  rewrite Nat.odd_add, Nat.odd_mul, (Nat.odd_add x y).
  replace (Nat.odd (hres - 1)) with true.
  { rewrite andb_true_r. reflexivity. }
  symmetry. rewrite Nat.odd_sub by lia. rewrite <- Nat.negb_even, Hev. reflexivity.
Qed.

(** Odd line length: not a checkerboard, every column has one colour. *)
Theorem C54_dots_odd_columns_partial : forall i hres, always_valid i -> always_ready i -> hres_is i hres -> 1 <= hres < 4096 ->
  Nat.odd hres = true -> forall n x y, x < hres -> y * hres + x < n ->
  nth (y * hres + x) (dt_pixels i (n + 1)) black = par_colour (Nat.odd x).
Proof.
  intros i hres V R H Hr Hev n x y Hx Hn. rewrite (dt_pixels_at i hres V R H Hr), nth_map_seq by exact Hn.
  unfold par_colour, dot_par. replace (y * hres + x) with (x + y * hres) by lia.
  rewrite Nat.mod_add, Nat.div_add by lia. rewrite Nat.mod_small, Nat.div_small by exact Hx. cbn [plus].
  rewrite Nat.odd_add, Nat.odd_mul.
  replace (Nat.odd (hres - 1)) with false.
  { rewrite andb_false_r, xorb_false_r. reflexivity. }
  symmetry. rewrite Nat.odd_sub by lia. rewrite Hev. reflexivity.
Qed.

Definition steady (hres : nat) (ready : nat -> bool) (n : nat) : pt_in :=
  {| pti_valid := true; pti_hres := Z.of_nat hres; pti_ready := ready n |}.
Theorem C54_dots_odd_refuted : exists i hres, always_valid i /\ always_ready i /\ hres_is i hres /\ 1 <= hres < 4096 /\
  exists n x y, x < hres /\ y * hres + x < n /\
  nth (y * hres + x) (dt_pixels i (n + 1)) black <> par_colour (Nat.odd (x + y)).
Proof.
  exists (steady 3 (fun _ => true)), 3. split; [intros m; reflexivity|]. split; [intros m; reflexivity|].
  split; [intros m; reflexivity|]. split; [lia|]. exists 6, 0, 1. split; [lia|]. split; [lia|]. vm_compute. discriminate.
Qed.

(** * C53: back-pressure.  Exact behaviour for every schedule: the data on offer in clock [n+1]
    belong to the pixel reached in clock [n], i.e. they follow ready with one clock of lag. *)
Theorem C53_exact_data_partial : forall i hres, hres_is i hres -> 8 <= hres < 4096 -> forall n,
  cb_rgb (cb_run i (S n)) = bar_spec (taken i n / (hres / 8)) /\
  (always_valid i -> vl_rgb (vl_run i (S n)) = par_colour (Nat.odd (taken i n))) /\
  dt_rgb (dt_run i (S n)) = par_colour (Nat.odd (taken i n mod hres + (taken i n / hres) * (hres - 1))).
Proof.
  intros i hres H Hr n. split; [|split].
  - apply (cb_rgb_at i hres H Hr).
  - intros V. apply vl_rgb_at. exact V.
  - apply (dt_rgb_at i hres H). lia.
Qed.

(** Data are stable if the consumer was not ready in the previous clock either. *)
Theorem C53_stable_after_one_clock_partial : forall i hres, hres_is i hres -> 8 <= hres < 4096 -> forall n,
  pti_ready (i n) = false -> always_valid i ->
  cb_rgb (cb_run i (S (S n))) = cb_rgb (cb_run i (S n)) /\ vl_rgb (vl_run i (S (S n))) = vl_rgb (vl_run i (S n)) /\
  dt_rgb (dt_run i (S (S n))) = dt_rgb (dt_run i (S n)).
Proof.
  intros i hres H Hr n NR V.
  assert (T : taken i (S n) = taken i n) by (rewrite taken_S, NR, andb_false_r; lia).
  rewrite !(cb_rgb_at i hres H Hr), !(dt_rgb_at i hres H) by lia.
  destruct (vl_rgb_at i V n) as [-> _]. destruct (vl_rgb_at i V (S n)) as [-> _]. rewrite T. auto.
Qed.

(** But not in general: all three sources change their data while valid and not ready. *)
Theorem C53_data_changes_refuted :
  (exists i n, always_valid i /\ hres_is i 8 /\ cb_valid (cb_run i n) = true /\ pti_ready (i n) = false /\
     cb_rgb (cb_run i (S n)) <> cb_rgb (cb_run i n)) /\
  (exists i n, always_valid i /\ hres_is i 8 /\ vl_valid (vl_run i n) = true /\ pti_ready (i n) = false /\
     vl_rgb (vl_run i (S n)) <> vl_rgb (vl_run i n)) /\
  (exists i n, always_valid i /\ hres_is i 8 /\ dt_valid (dt_run i n) = true /\ pti_ready (i n) = false /\
     dt_rgb (dt_run i (S n)) <> dt_rgb (dt_run i n)).
Proof.
  repeat apply conj; exists (steady 8 (fun n => n <? 2)), 2;
    (split; [intros m; reflexivity|]; split; [intros m; reflexivity|]; split; [reflexivity|]; split; [reflexivity|]; vm_compute; discriminate).
Qed.

(** And the delivered sequence depends on the schedule: with ready high every second clock, the first two pixels
    of eight-pixel lines are white and white instead of white and yellow. *)
Theorem C53_sequence_refuted : exists i j n m, always_valid i /\ always_valid j /\ hres_is i 8 /\ hres_is j 8 /\
  length (cb_pixels i n) = 2 /\ length (cb_pixels j m) = 2 /\ cb_pixels i n <> cb_pixels j m.
Proof.
  exists (steady 8 (fun _ => true)), (steady 8 (fun n => (n =? 1) || (n =? 2))), 3, 3.
  do 4 (split; [intros k; reflexivity|]). vm_compute. repeat split. discriminate.
Qed.

Example patterns_case : let i := steady 16 (fun _ => true) in
  always_valid i /\ always_ready i /\ hres_is i 16 /\ nth (1 * 16 + 5) (cb_pixels i 30) black = {| c_r := 0; c_g := 255; c_b := 255 |}%Z.
Proof. split; [intros m; reflexivity|]. split; [intros m; reflexivity|]. split; [intros m; reflexivity|]. vm_compute. reflexivity. Qed.

Print Assumptions C52_colour_bars.
Print Assumptions C52_lines.
Print Assumptions C52_short_lines.
Print Assumptions C53_exact_data_partial.
Print Assumptions C53_stable_after_one_clock_partial.
Print Assumptions C53_data_changes_refuted.
Print Assumptions C53_sequence_refuted.
Print Assumptions C54_vertical_lines_partial.
Print Assumptions C54_dots_even_partial.
Print Assumptions C54_dots_odd_columns_partial.
Print Assumptions C54_dots_odd_refuted.
