(** C112: colours through a capture and an output in ycbcr422 mode. *)
From Coq Require Import ZArith List Bool Lia Arith.
From Verif Require Import Hdl CscModel CscSpec CscProofs CscProps YccPathModel YccPathProps.
Import ListNotations.
Open Scope Z_scope.

(** How much the chroma of the pair of pixel [n] differs. *)
Definition chroma_gap (i : nat -> fe_in) (t n : nat) : Z :=
  let a := ycc_at i (t + 2 * (n / 2)) in
  let b := ycc_at i (t + 2 * (n / 2) + 1) in
  Z.max (Z.abs (c_cb a - c_cb b)) (Z.abs (c_cr a - c_cr b)).

(** A captured line of pixels is stored and later shown: [j] is the stream of the output core with the stored pixels. *)
Definition shown_later F (i : nat -> fe_in) t len (j : nat -> vy_in) t' : Prop :=
  in_line i t len /\ out_line j t' len /\
  (forall n, (n < len)%nat -> fe_pixel (fe_run F i (t + n + 11)) (i (t + n + 11)%nat) = Some (vyi_data (j (t' + n)%nat))).

Lemma clamp_near : forall x y d, Z.abs (x - y) <= d -> Z.abs (clamp 0 255 x - clamp 0 255 y) <= d.
Proof. intros x y d H. unfold clamp. lia. Qed.
Lemma div_near : forall k a b e, 0 <= k -> Z.abs (a - b) <= e -> Z.abs (k * a / 64 - k * b / 64) <= (k * e + 63) / 64.
Proof.
  intros k a b e K H. pose proof (Z.div_mod (k * a) 64 ltac:(lia)). pose proof (Z.mod_pos_bound (k * a) 64 ltac:(lia)).
  pose proof (Z.div_mod (k * b) 64 ltac:(lia)). pose proof (Z.mod_pos_bound (k * b) 64 ltac:(lia)).
  pose proof (Z.div_mod (k * e + 63) 64 ltac:(lia)). pose proof (Z.mod_pos_bound (k * e + 63) 64 ltac:(lia)). 
  assert (k * a - k * b <= k * e) by nia. assert (k * b - k * a <= k * e) by nia. lia.
Qed.
Lemma div_near_neg : forall k a b e, 0 <= k -> Z.abs (a - b) <= e -> Z.abs (- k * a / 64 - - k * b / 64) <= (k * e + 63) / 64.
Proof.
  intros k a b e K H. replace (- k * a) with (k * (- a)) by ring. replace (- k * b) with (k * (- b)) by ring. apply div_near; lia.
Qed.

(** What is shown: pixel [n] with its own luma and the mean chroma of its pair. *)
Lemma loop_pixel : forall F i t len j t', (0 < len)%nat -> Nat.even len = true -> shown_later F i t len j t' ->
  forall n, (n < len)%nat ->
  let a := ycc_at i (t + 2 * (n / 2)) in let b := ycc_at i (t + 2 * (n / 2) + 1) in
  vy_colour (vy_run j (t' + n + 7)) =
  spec_rgb 8 {| c_y := c_y (ycc_at i (t + n)); c_cb := (c_cb a + c_cb b) / 2; c_cr := (c_cr a + c_cr b) / 2 |}.
Proof.
  intros F i t len j t' HL EV (I & O & ST) n N a b.
  destruct (C39_one_clock_late_partial j t' len HL EV O) as [C _]. rewrite (C n N).
  assert (D : forall k, (k < len)%nat -> vyi_data (j (t' + k)%nat) = line_422 i t k).
  { intros k K. pose proof (ST k K) as H. rewrite (C65_captured_pixels F i t len EV I k K) in H. congruence. }
  apply Nat.even_spec in EV as [q Q].
  assert (B : (n / 2 < q)%nat) by (apply Nat.div_lt_upper_bound; lia).
  pose proof (Nat.div_mod_eq n 2) as DM. pose proof (Nat.mod_upper_bound n 2 ltac:(lia)) as MB.
  unfold line_pixel. replace (t' + 2 * (n / 2) + 1)%nat with (t' + (2 * (n / 2) + 1))%nat by lia. rewrite !D by lia.
  assert (R : forall k, 0 <= c_y (ycc_at i k) < 256 /\ 0 <= c_cb (ycc_at i k) < 256 /\ 0 <= c_cr (ycc_at i k) < 256).
  { intros k. exact (spec_ycc_ok 8 (fi_px (i k)) ltac:(lia)). }
  assert (M : forall x y, 0 <= x < 256 -> 0 <= y < 256 -> 0 <= (x + y) / 2 < 256).
  { intros x y X Y. split; [apply Z.div_pos; lia|apply Z.div_lt_upper_bound; lia]. }
  assert (H2 : forall k, (2 * k / 2 = k)%nat) by (intros k; rewrite Nat.mul_comm; apply Nat.div_mul; lia).
  assert (H3 : forall k, ((2 * k + 1) / 2 = k)%nat) by (intros k; rewrite Nat.mul_comm, Nat.div_add_l by lia; change (1 / 2)%nat with 0%nat; lia).
  assert (LO : forall k, line_422 i t k mod 65536 mod 256 = c_y (ycc_at i (t + k)) /\ 
    line_422 i t k mod 65536 / 256 = (if Nat.even k then (c_cb (ycc_at i (t + 2 * (k / 2))) + c_cb (ycc_at i (t + 2 * (k / 2) + 1))) / 2 else (c_cr (ycc_at i (t + 2 * (k / 2))) + c_cr (ycc_at i (t + 2 * (k / 2) + 1))) / 2)).
  { intros k. unfold line_422. cbv zeta. set (v := if Nat.even k then _ else _).
    assert (V : 0 <= v < 256) by (unfold v; destruct (Nat.even k); apply M; apply R). pose proof (R (t + k)%nat) as [Y _].
    rewrite (Z.mod_small (_ + _) 65536) by lia. split.
    - rewrite Z.mul_comm, Z.mod_add by lia. apply Z.mod_small. exact Y.
    - rewrite Z.mul_comm, Z.div_add by lia. rewrite (Z.div_small _ _ Y). reflexivity. }
  destruct (LO n) as [L1 _]. destruct (LO (2 * (n / 2))%nat) as [_ L2]. destruct (LO (2 * (n / 2) + 1)%nat) as [_ L3].
  rewrite H2 in L2. rewrite H3 in L3. rewrite Nat.even_mul in L2. cbn [Nat.even orb] in L2.
  rewrite Nat.even_add, Nat.even_mul in L3. cbn [Nat.even orb Bool.eqb] in L3.
  rewrite L1, L2, L3. reflexivity.
Qed.

Theorem C112_loop : forall F i t len j t', (0 < len)%nat -> Nat.even len = true -> shown_later F i t len j t' ->
  forall n, (n < len)%nat ->
  let p := fi_px (i (t + n)%nat) in let shown := vy_colour (vy_run j (t' + n + 7)) in let d := chroma_gap i t n in
  (Z.abs (c_r shown - c_r p) <= 18 + d /\ Z.abs (c_g shown - c_g p) <= 17 + d /\ Z.abs (c_b shown - c_b p) <= 18 + d) /\
  (unsaturated p -> Z.abs (c_r shown - c_r p) <= 4 + d /\ Z.abs (c_g shown - c_g p) <= 4 + d /\ Z.abs (c_b shown - c_b p) <= 4 + d) /\
  (d = 0 -> (Z.abs (c_r shown - c_r p) <= 17 /\ Z.abs (c_g shown - c_g p) <= 16 /\ Z.abs (c_b shown - c_b p) <= 17) /\
            (unsaturated p -> Z.abs (c_r shown - c_r p) <= 3 /\ Z.abs (c_g shown - c_g p) <= 3 /\ Z.abs (c_b shown - c_b p) <= 3)).
Proof.
  intros F i t len j t' HL EV S n N p shown d. pose proof (loop_pixel F i t len j t' HL EV S n N) as E. cbv zeta in E. fold shown in E.
  assert (OK : rgb_ok 8 p) by (destruct S as ((_ & I & _) & _); apply (I (t + n)%nat); lia).
  destruct (round_trip_bounds p OK) as [RB UB]. unfold round_trip in RB, UB.
  rewrite ry_formula in RB, UB by (lia || exact OK). rewrite yr_formula in RB, UB by (lia || (apply spec_ycc_ok; lia)).
  set (a := ycc_at i (t + 2 * (n / 2))) in *. set (b := ycc_at i (t + 2 * (n / 2) + 1)) in *.
  assert (Q : spec_ycc 8 p = a \/ spec_ycc 8 p = b).
  { pose proof (Nat.div_mod_eq n 2) as DM. pose proof (Nat.mod_upper_bound n 2 ltac:(lia)) as MB. unfold a, b, p.
    destruct (Nat.eq_dec (n mod 2) 0); [left; replace (t + 2 * (n / 2))%nat with (t + n)%nat by lia; reflexivity|
      right; replace (t + 2 * (n / 2) + 1)%nat with (t + n)%nat by lia; reflexivity]. }
  change (ycc_at i (t + n)) with (spec_ycc 8 p) in E. set (c := spec_ycc 8 p) in *.
  assert (DV : d = Z.max (Z.abs (c_cb a - c_cb b)) (Z.abs (c_cr a - c_cr b))) by reflexivity.
  set (e := (d + 1) / 2).
  assert (Ee : 2 * e <= d + 1 /\ d <= 2 * e).
  { unfold e. pose proof (Z.div_mod (d + 1) 2 ltac:(lia)). pose proof (Z.mod_pos_bound (d + 1) 2 ltac:(lia)). lia. }
  assert (MN : forall x y, 2 * ((x + y) / 2) <= x + y <= 2 * ((x + y) / 2) + 1).
  { intros x y. pose proof (Z.div_mod (x + y) 2 ltac:(lia)). pose proof (Z.mod_pos_bound (x + y) 2 ltac:(lia)). lia. }
  assert (CB : Z.abs ((c_cb a + c_cb b) / 2 - c_cb c) <= e) by (pose proof (MN (c_cb a) (c_cb b)); destruct Q as [-> | ->]; lia).
  assert (CR : Z.abs ((c_cr a + c_cr b) / 2 - c_cr c) <= e) by (pose proof (MN (c_cr a) (c_cr b)); destruct Q as [-> | ->]; lia).
  set (mb := (c_cb a + c_cb b) / 2) in *. set (mr := (c_cr a + c_cr b) / 2) in *.
  assert (KR : Z.abs (c_r shown - c_r (spec_rgb 8 c)) <= (98 * e + 63) / 64).
  { rewrite E. unfold spec_rgb. cbn [c_r c_y c_cb c_cr]. change (2 ^ 8 - 1) with 255. apply clamp_near.
    pose proof (div_near 98 (mr - 2 ^ 8 / 2) (c_cr c - 2 ^ 8 / 2) e ltac:(lia) ltac:(lia)). lia. }
  assert (KG : Z.abs (c_g shown - c_g (spec_rgb 8 c)) <= (9 * e + 63) / 64 + (23 * e + 63) / 64).
  { rewrite E. unfold spec_rgb. cbn [c_g c_y c_cb c_cr]. change (2 ^ 8 - 1) with 255. apply clamp_near.
    pose proof (div_near_neg 9 (mb - 2 ^ 8 / 2) (c_cb c - 2 ^ 8 / 2) e ltac:(lia) ltac:(lia)).
    pose proof (div_near_neg 23 (mr - 2 ^ 8 / 2) (c_cr c - 2 ^ 8 / 2) e ltac:(lia) ltac:(lia)).
    change (- (9)) with (-9) in *. change (- (23)) with (-23) in *. lia. }
  assert (KB : Z.abs (c_b shown - c_b (spec_rgb 8 c)) <= (116 * e + 63) / 64).
  { rewrite E. unfold spec_rgb. cbn [c_b c_y c_cb c_cr]. change (2 ^ 8 - 1) with 255. apply clamp_near.
    pose proof (div_near 116 (mb - 2 ^ 8 / 2) (c_cb c - 2 ^ 8 / 2) e ltac:(lia) ltac:(lia)). lia. }
  assert (D0 : 0 <= d) by lia. clear DV E CB CR MN Q.
  assert (B1 : (98 * e + 63) / 64 <= d + 1 /\ (116 * e + 63) / 64 <= d + 1 /\ (9 * e + 63) / 64 + (23 * e + 63) / 64 <= d + 1).
  { pose proof (Z.div_mod (98 * e + 63) 64 ltac:(lia)). pose proof (Z.mod_pos_bound (98 * e + 63) 64 ltac:(lia)).
    pose proof (Z.div_mod (116 * e + 63) 64 ltac:(lia)). pose proof (Z.mod_pos_bound (116 * e + 63) 64 ltac:(lia)).
    pose proof (Z.div_mod (9 * e + 63) 64 ltac:(lia)). pose proof (Z.mod_pos_bound (9 * e + 63) 64 ltac:(lia)).
    pose proof (Z.div_mod (23 * e + 63) 64 ltac:(lia)). pose proof (Z.mod_pos_bound (23 * e + 63) 64 ltac:(lia)). lia. }
  split; [lia|]. split; [intros U; specialize (UB U); lia|]. intros Z0.
  assert (e = 0) as -> by lia. change ((98 * 0 + 63) / 64) with 0 in KR. change ((9 * 0 + 63) / 64 + (23 * 0 + 63) / 64) with 0 in KG. change ((116 * 0 + 63) / 64) with 0 in KB.
  split; [lia|]. intros U. specialize (UB U). lia.
Qed.

(** The hypotheses are met: a line of two pixels, captured and shown. *)
Definition ex_li (k : nat) : fe_in :=
  {| fi_valid := true; fi_vsync := false; fi_de := (2 <=? k)%nat && (k <? 4)%nat;
     fi_px := if (k =? 2)%nat then {| c_r := 200; c_g := 30; c_b := 90 |} else {| c_r := 190; c_g := 40; c_b := 95 |} |}.
Definition ex_lo (k : nat) : vy_in :=
  {| vyi_valid := true; vyi_de := (1 <=? k)%nat && (k <? 3)%nat; vyi_hs := false; vyi_vs := false;
     vyi_data := if (k =? 1)%nat then line_422 ex_li 2 0 else line_422 ex_li 2 1 |}.
Example C112_ex : shown_later 2 ex_li 2 2 ex_lo 1 /\ chroma_gap ex_li 2 0 = 11 /\ unsaturated (fi_px (ex_li 2)) /\
  vy_colour (vy_run ex_lo 8) = {| c_r := 189; c_g := 32; c_b := 87 |}.
Proof.
  split; [|vm_compute; repeat split; discriminate].
  split; [|split].
  - split; [|split].
    + intros m H. injection H as ->. reflexivity.
    + intros k K. assert (C : k = 2%nat \/ k = 3%nat) by lia. destruct C as [-> | ->]; vm_compute; repeat split; discriminate.
    + intros k K. unfold ex_li. cbn [fi_de]. apply andb_false_iff. right. apply Nat.ltb_ge. lia.
  - split; [|split].
    + intros m H. injection H as ->. reflexivity.
    + intros k K. assert (C : k = 1%nat \/ k = 2%nat) by lia. destruct C as [-> | ->]; vm_compute; auto.
    + intros k K. unfold ex_lo. cbn [vyi_de]. apply andb_false_iff. right. apply Nat.ltb_ge. lia.
  - intros n H. assert (C : n = 0%nat \/ n = 1%nat) by lia. destruct C as [-> | ->]; vm_compute; reflexivity.
Qed.

Print Assumptions C112_loop.
