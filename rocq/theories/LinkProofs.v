(** Auxiliary lemmas for LinkProps: closed form of the sent stream, and the
    resolution detector fed with a raster from any state. *)
From Coq Require Import ZArith List Bool Lia Arith.
From Verif Require Import Hdl Trace TimingModel TimingSpec TimingProofs VideoOutModel VideoOutProofs AnalysisModel
  HdmiModel LinkModel.
Import ListNotations.
Open Scope Z_scope.

(** Parameters suited to the link: 24 active pixels and 30 blank clocks per
    line at least, blank lines, sync pulses away from the active pixels. *)
Record link_ok (p : fparam) : Prop := {
  lk_ok : params_ok p;
  lk_hres : 24 <= p_hres p;
  lk_blank : p_hres p + 30 <= p_hscan p + 1;
  lk_vres : 1 <= p_vres p <= p_vscan p;
  lk_hs : p_hres p < p_hs_start p;
  lk_vs : p_vres p <= p_vs_start p < p_vs_end p
}.

Section Tx.
Variable p : fparam.
Hypothesis ok : params_ok p.
Variable w : nat -> Z.
Let st := vs_run false w (tx_always p).

Lemma tx_tg : forall n, vs_tg (st n) = tg_at p (Z.of_nat n).
Proof.
  induction n as [|n IH]; [symmetry; apply tg_at_0; exact ok|].
  change (st (S n)) with (vs_step false w (st n) (tx_always p n)). unfold vs_step. cbn [vs_tg].
  unfold vo_step. cbn [vs_vi tx_always vi_valid vi_p si_valid si_p].
  assert (R : vo_tready (vs_tg (st n)) (vs_vi w (st n) (tx_always p n)) = true).
  { unfold vo_tready, vo_valid. cbn [vs_vi tx_always vi_valid vi_p si_valid si_p vi_dv vi_ready si_dv si_ready negb andb].
    rewrite orb_true_r. reflexivity. }
  change {| vi_valid := true; vi_p := p; vi_dv := si_dv _; vi_data := w _; vi_ready := si_ready _ |} with
    (vs_vi w (st n) (tx_always p n)).
  rewrite R, IH. rewrite tg_at_succ by (try exact ok; lia). f_equal. lia.
Qed.

Definition tx_de (n : nat) : bool := (1 <=? n)%nat && spec_de p (Z.of_nat n - 1).
Definition tx_hs (n : nat) : bool := (1 <=? n)%nat && spec_hsync p (Z.of_nat n - 1).
Definition tx_vs (n : nat) : bool := (1 <=? n)%nat && spec_vsync p (Z.of_nat n - 1).

Lemma one_le : forall n, (1 <=? Z.of_nat n) = (1 <=? n)%nat.
Proof. intros n. destruct (Z.leb_spec 1 (Z.of_nat n)); destruct (Nat.leb_spec 1 n); lia || reflexivity. Qed.

Lemma tx_stream_de : forall n, px_de (tx_stream p w n) = tx_de n.
Proof.
  intros n. unfold tx_stream. cbv zeta. fold st. cbn [tx_px px_de vs_vi vi_valid tx_always si_valid].
  rewrite tx_tg. unfold tg_de, tg_at, tx_de, spec_de. cbn [t_hact t_vact]. rewrite one_le.
  destruct (1 <=? n)%nat; reflexivity.
Qed.
Lemma tx_stream_hs : forall n, px_hs (tx_stream p w n) = tx_hs n.
Proof.
  intros n. unfold tx_stream. cbv zeta. fold st. cbn [tx_px px_hs]. rewrite tx_tg. cbn [tg_at t_hs].
  rewrite one_le. reflexivity.
Qed.
Lemma tx_stream_vs : forall n, px_vs (tx_stream p w n) = tx_vs n.
Proof.
  intros n. unfold tx_stream. cbv zeta. fold st. cbn [tx_px px_vs]. rewrite tx_tg. cbn [tg_at t_vs].
  rewrite one_le. reflexivity.
Qed.

(** Number of words taken before clock [n]. *)
Lemma tx_taken : forall n, vs_taken (st n) = pixels_before p (n - 1).
Proof.
  induction n as [|n IH]; [reflexivity|].
  change (st (S n)) with (vs_step false w (st n) (tx_always p n)). unfold vs_step. cbn [vs_taken].
  assert (D : tg_de true (vs_tg (st n)) = tx_de n) by (rewrite <- tx_stream_de; reflexivity).
  assert (E : vi_dv (vs_vi w (st n) (tx_always p n)) && vo_dready false (vs_tg (st n)) (vs_vi w (st n) (tx_always p n)) = tx_de n).
  { rewrite <- D. unfold vo_dready, vo_valid.
    cbn [vs_vi tx_always vi_valid vi_p si_valid si_p vi_dv vi_ready si_dv si_ready negb andb].
    rewrite orb_true_r, orb_false_r. reflexivity. }
  rewrite E, IH. unfold tx_de. destruct n as [|n]; [reflexivity|].
  replace (S (S n) - 1)%nat with (S n) by lia. replace (S n - 1)%nat with n by lia.
  unfold pixels_before. cbn [occurrences]. rewrite Nat.add_0_l.
  replace (Z.of_nat (S n) - 1) with (Z.of_nat n) by lia. cbn [Nat.leb andb].
  destruct (spec_de p (Z.of_nat n)); lia.
Qed.

Lemma tx_stream_rgb : forall n, let d := w (pixels_before p (n - 1)) in
  px_r (tx_stream p w n) = slice 0 8 d /\ px_g (tx_stream p w n) = slice 8 8 d /\ px_b (tx_stream p w n) = slice 16 8 d.
Proof.
  intros n. unfold tx_stream. cbv zeta. fold st. cbn [tx_px px_r px_g px_b vs_vi vi_data]. rewrite tx_taken. auto.
Qed.

Lemma slice8 : forall k x, 0 <= slice k 8 x < 256.
Proof. intros k x. unfold slice. apply Z.mod_pos_bound. lia. Qed.

Lemma tx_px_ok : forall n, 0 <= px_r (tx_stream p w n) < 256 /\ 0 <= px_g (tx_stream p w n) < 256 /\
  0 <= px_b (tx_stream p w n) < 256.
Proof. intros n. destruct (tx_stream_rgb n) as (-> & -> & ->). repeat split; apply slice8. Qed.
End Tx.

(** ** Sync signals stay away from the active pixels *)
Section Away.
Variable p : fparam.
Hypothesis lk : link_ok p.
Let ok := lk_ok p lk.

Lemma de_xy : forall n, tx_de p n = true -> (1 <= n)%nat /\
  scan_x p (Z.of_nat n - 1) < p_hres p /\ scan_y p (Z.of_nat n - 1) < p_vres p.
Proof.
  intros n H. unfold tx_de, spec_de in H. apply andb_true_iff in H as [A H]. apply andb_true_iff in H as [B C].
  apply Nat.leb_le in A. apply Z.ltb_lt in B, C. auto.
Qed.

Lemma syncs_off : forall n, (1 <= n)%nat ->
  (scan_x p (Z.of_nat n - 1) <= p_hres p \/ scan_x p (Z.of_nat n - 1) = p_hscan p) ->
  (scan_y p (Z.of_nat n - 1) < p_vres p \/ scan_y p (Z.of_nat n - 1) = p_vscan p) ->
  tx_hs p n = false /\ tx_vs p n = false.
Proof.
  intros n Hn X Y. destruct lk as [ok' ? ? ? ? ?]. destruct ok' as [? ? ? ? ? ? ? ?].
  unfold tx_hs, tx_vs, spec_hsync, spec_vsync. replace (1 <=? n)%nat with true by (symmetry; apply Nat.leb_le; lia).
  cbn [andb]. rewrite !andb_false_iff, !Z.leb_gt, !Z.ltb_ge. lia.
Qed.

Lemma tx_away : forall n m, tx_de p n = true -> (n <= m + 1)%nat -> (m <= n + 1)%nat ->
  tx_hs p m = false /\ tx_vs p m = false.
Proof.
  intros n m D A B. apply de_xy in D as (N & X & Y).
  destruct (scan_range p ok (Z.of_nat n - 1)) as [RX RY]. pose proof lk as [? ? ? ? ? ?].
  destruct (Nat.eq_dec m 0) as [->|M]; [split; reflexivity|].
  assert (C : (m = n \/ m = n + 1 \/ n = m + 1)%nat) by lia. apply syncs_off; [lia| |]; destruct C as [->|[->|C]].
  - lia.
  - replace (Z.of_nat (n + 1) - 1) with (Z.of_nat n - 1 + 1) by lia.
    destruct (scan_succ p ok (Z.of_nat n - 1) ltac:(lia)) as [-> _].
    destruct (Z.eqb_spec (scan_x p (Z.of_nat n - 1)) (p_hscan p)); lia.
  - subst n. replace (Z.of_nat (m + 1) - 1) with (Z.of_nat m - 1 + 1) in * by lia.
    destruct (scan_succ p ok (Z.of_nat m - 1) ltac:(lia)) as [E _]. rewrite E in X.
    destruct (Z.eqb_spec (scan_x p (Z.of_nat m - 1)) (p_hscan p)); lia.
  - lia.
  - replace (Z.of_nat (n + 1) - 1) with (Z.of_nat n - 1 + 1) by lia.
    destruct (scan_succ p ok (Z.of_nat n - 1) ltac:(lia)) as [_ ->].
    destruct (Z.eqb_spec (scan_x p (Z.of_nat n - 1)) (p_hscan p)); lia.
  - subst n. replace (Z.of_nat (m + 1) - 1) with (Z.of_nat m - 1 + 1) in * by lia.
    destruct (scan_succ p ok (Z.of_nat m - 1) ltac:(lia)) as [_ E]. rewrite E in Y.
    destruct (scan_range p ok (Z.of_nat m - 1)) as [_ RM].
    destruct (Z.eqb_spec (scan_x p (Z.of_nat m - 1)) (p_hscan p)); [|lia].
    destruct (Z.eqb_spec (scan_y p (Z.of_nat m - 1)) (p_vscan p)); lia.
Qed.

(** DE at column [x] of line [y] of frame [f]. *)
Definition clk (f y x : Z) : nat := Z.to_nat (1 + (f * (p_vscan p + 1) + y) * (p_hscan p + 1) + x).

Lemma clk_pos : forall f y x, 0 <= f -> 0 <= y -> 0 <= x -> 0 <= (f * (p_vscan p + 1) + y) * (p_hscan p + 1) + x.
Proof. intros. destruct ok. apply Z.add_nonneg_nonneg; [|lia]. apply Z.mul_nonneg_nonneg; [|lia]. nia. Qed.

Lemma clk_z : forall f y x, 0 <= f -> 0 <= y -> 0 <= x ->
  Z.of_nat (clk f y x) = 1 + (f * (p_vscan p + 1) + y) * (p_hscan p + 1) + x.
Proof. intros f y x F Y X. pose proof (clk_pos f y x F Y X). unfold clk. rewrite Z2Nat.id by lia. reflexivity. Qed.

Lemma clk_xy : forall f y x, 0 <= f -> 0 <= y <= p_vscan p -> 0 <= x <= p_hscan p ->
  scan_x p (Z.of_nat (clk f y x) - 1) = x /\ scan_y p (Z.of_nat (clk f y x) - 1) = y.
Proof.
  intros f y x F Y X. rewrite clk_z by lia.
  replace (1 + (f * (p_vscan p + 1) + y) * (p_hscan p + 1) + x - 1) with ((f * (p_vscan p + 1) + y) * (p_hscan p + 1) + x) by lia.
  exact (point_xy p f y x F Y X).
Qed.

Lemma clk_de : forall f y x, 0 <= f -> 0 <= y <= p_vscan p -> 0 <= x <= p_hscan p ->
  tx_de p (clk f y x) = (x <? p_hres p) && (y <? p_vres p).
Proof.
  intros f y x F Y X. destruct (clk_xy f y x F Y X) as [EX EY]. unfold tx_de, spec_de. rewrite EX, EY.
  replace (1 <=? clk f y x)%nat with true; [reflexivity|]. symmetry. apply Nat.leb_le.
  pose proof (clk_z f y x F ltac:(lia) ltac:(lia)). pose proof (clk_pos f y x F ltac:(lia) ltac:(lia)). lia.
Qed.

Lemma clk_succ_x : forall f y x k, 0 <= f -> 0 <= y -> 0 <= x -> clk f y (x + Z.of_nat k) = (clk f y x + k)%nat.
Proof.
  intros f y x k F Y X. apply Nat2Z.inj. rewrite Nat2Z.inj_add, !clk_z by lia. lia.
Qed.
Lemma clk_line : forall f y, 0 <= f -> 0 <= y -> clk f (y + 1) 0 = clk f y (p_hscan p + 1).
Proof.
  intros f y F Y. destruct ok. apply Nat2Z.inj. rewrite !clk_z by lia. lia.
Qed.
End Away.

(** ** The resolution detector fed with a raster *)
Section Res.
Variable p : fparam.
Hypothesis lk : link_ok p.
Let ok := lk_ok p lk.
Variable s0 : rd_st.
Variable i : nat -> rd_in.
Variables B M : nat.
Hypothesis HBM : (B < M)%nat.
Hypothesis Hi : forall n, (M <= n)%nat ->
  rdi_valid (i n) = true /\ rdi_de (i n) = spec_de p (Z.of_nat n - Z.of_nat B - 1) /\
  rdi_vsync (i n) = spec_vsync p (Z.of_nat n - Z.of_nat B - 1).
Let st := at_ (rd_step 11) s0 i.
Let X n := scan_x p (Z.of_nat n - Z.of_nat B - 1).
Let Y n := scan_y p (Z.of_nat n - Z.of_nat B - 1).
Let HV := Z.to_nat ((p_hscan p + 1) * (p_vscan p + 1)).

Lemma st_S : forall n, st (S n) = rd_step 11 (st n) (i n).
Proof. reflexivity. Qed.

Lemma xy_succ : forall n, (M <= n)%nat ->
  X (S n) = (if X n =? p_hscan p then 0 else X n + 1) /\
  Y (S n) = (if X n =? p_hscan p then (if Y n =? p_vscan p then 0 else Y n + 1) else Y n).
Proof.
  intros n Hn. unfold X, Y. replace (Z.of_nat (S n) - Z.of_nat B - 1) with (Z.of_nat n - Z.of_nat B - 1 + 1) by lia.
  apply scan_succ; [exact ok|lia].
Qed.
Lemma xy_range : forall n, 0 <= X n <= p_hscan p /\ 0 <= Y n <= p_vscan p.
Proof. intros n. apply scan_range. exact ok. Qed.

Lemma in_de : forall n, (M <= n)%nat -> rdi_de (i n) = (X n <? p_hres p) && (Y n <? p_vres p).
Proof. intros n Hn. destruct (Hi n Hn) as (_ & -> & _). reflexivity. Qed.
Lemma in_vs : forall n, (M <= n)%nat -> rdi_vsync (i n) = (p_vs_start p <=? Y n) && (Y n <? p_vs_end p).
Proof. intros n Hn. destruct (Hi n Hn) as (_ & _ & ->). reflexivity. Qed.

Ltac bdec :=
  repeat match goal with
  | |- context [?a <? ?b] => destruct (Z.ltb_spec a b)
  | |- context [?a <=? ?b] => destruct (Z.leb_spec a b)
  | |- context [?a =? ?b] => destruct (Z.eqb_spec a b)
  end.
Ltac sdec n := destruct (Z.eqb_spec (X n) (p_hscan p)); destruct (Z.eqb_spec (Y n) (p_vscan p)); bdec.

(** Edges, at clock [S n]. *)
Lemma fall_at : forall n, (M <= n)%nat ->
  negb (rdi_de (i (S n))) && rd_de_r (st (S n)) = (X (S n) =? p_hres p) && (Y (S n) <? p_vres p).
Proof.
  intros n Hn. rewrite st_S. cbn [rd_step rd_de_r]. rewrite !in_de by lia.
  destruct (xy_succ n Hn) as [-> ->]. destruct (xy_range n). destruct lk, (lk_ok p lk).
  sdec n; cbn [negb andb]; try reflexivity; lia.
Qed.
Lemma rise_at : forall n, (M <= n)%nat ->
  rdi_vsync (i (S n)) && negb (rd_vs_r (st (S n))) = (X (S n) =? 0) && (Y (S n) =? p_vs_start p).
Proof.
  intros n Hn. rewrite st_S. cbn [rd_step rd_vs_r]. rewrite !in_vs by lia.
  destruct (xy_succ n Hn) as [-> ->]. destruct (xy_range n). destruct lk, (lk_ok p lk).
  sdec n; cbn [negb andb]; try reflexivity; lia.
Qed.

Lemma trunc11_succ : forall k, trunc 11 (trunc 11 k + 1) = trunc 11 (k + 1).
Proof. intros k. unfold trunc. rewrite Zplus_mod_idemp_l. reflexivity. Qed.

(** Pixel counter before clock [n]. *)
Definition hexp (x y : Z) : Z := if (y <? p_vres p) && (x <=? p_hres p) then x else 0.
Lemma hc_start : forall n, (M <= n)%nat -> X n = p_hscan p -> rd_hc (st (S n)) = trunc 11 (hexp (X (S n)) (Y (S n))).
Proof.
  intros n Hn E. rewrite st_S. cbn [rd_step rd_hc]. rewrite in_de by lia. rewrite E.
  destruct (xy_succ n Hn) as [-> _]. rewrite E, Z.eqb_refl. destruct lk, (lk_ok p lk).
  destruct (Z.ltb_spec (p_hscan p) (p_hres p)); [lia|]. cbn [andb]. rewrite andb_false_r.
  unfold hexp. destruct (_ && _); reflexivity.
Qed.
Lemma hc_next : forall n, (M <= n)%nat -> rd_hc (st n) = trunc 11 (hexp (X n) (Y n)) ->
  rd_hc (st (S n)) = trunc 11 (hexp (X (S n)) (Y (S n))).
Proof.
  intros n Hn IH. rewrite st_S. cbn [rd_step rd_hc]. rewrite in_de by lia. destruct (Hi n Hn) as (-> & _ & _).
  rewrite IH, trunc11_succ. cbn [andb].
  destruct (xy_succ n Hn) as [-> ->]. destruct (xy_range n). destruct lk, (lk_ok p lk).
  unfold hexp. sdec n; cbn [negb andb]; try lia; try reflexivity; try (f_equal; lia).
Qed.

(** Line counter before clock [n]. *)
Definition vexp (x y : Z) : Z :=
  if y <? p_vres p then y + (if p_hres p <? x then 1 else 0)
  else if (y <? p_vs_start p) || ((y =? p_vs_start p) && (x =? 0)) then p_vres p else 0.
Lemma vc_start : forall n, (M <= n)%nat -> X (S n) = 0 -> Y (S n) = p_vs_start p ->
  rd_vc (st (S (S n))) = trunc 11 (vexp (X (S (S n))) (Y (S (S n)))).
Proof.
  intros n Hn EX EY. rewrite st_S. cbn [rd_step rd_vc]. rewrite rise_at by lia. destruct (Hi (S n) ltac:(lia)) as (-> & _ & _).
  destruct (xy_succ (S n) ltac:(lia)) as [-> ->]. rewrite EX, EY, !Z.eqb_refl. cbn [andb].
  destruct lk, (lk_ok p lk). unfold vexp. destruct (Z.eqb_spec 0 (p_hscan p)); [lia|]. bdec; cbn [andb orb]; try lia; reflexivity.
Qed.
Lemma vc_next : forall n, (M <= n)%nat -> rd_vc (st (S n)) = trunc 11 (vexp (X (S n)) (Y (S n))) ->
  rd_vc (st (S (S n))) = trunc 11 (vexp (X (S (S n))) (Y (S (S n)))).
Proof.
  intros n Hn IH. rewrite st_S. cbn [rd_step rd_vc]. rewrite rise_at, fall_at by lia.
  destruct (Hi (S n) ltac:(lia)) as (-> & _ & _). rewrite IH, trunc11_succ. cbn [andb].
  destruct (xy_succ (S n) ltac:(lia)) as [-> ->]. destruct (xy_range (S n)). destruct lk, (lk_ok p lk).
  unfold vexp. sdec (S n); cbn [negb andb orb]; try lia; try reflexivity; try (f_equal; lia).
Qed.

(** A given point of the raster comes within one frame. *)
Lemma HV_z : Z.of_nat HV = (p_hscan p + 1) * (p_vscan p + 1).
Proof. destruct ok. unfold HV. rewrite Z2Nat.id by nia. reflexivity. Qed.

Lemma point_comes : forall a x y, (M <= a)%nat -> 0 <= x <= p_hscan p -> 0 <= y <= p_vscan p ->
  exists n, (a <= n < a + HV)%nat /\ X n = x /\ Y n = y.
Proof.
  intros a x y Ha Hx Hy. pose proof HV_z as E. pose proof ok as [? ? ? ? ? ? ? ?].
  set (N := (p_hscan p + 1) * (p_vscan p + 1)) in *. assert (PN : 0 < N) by (unfold N; nia).
  set (k := Z.of_nat a - Z.of_nat B - 1). set (t := y * (p_hscan p + 1) + x).
  pose proof (Z.mod_pos_bound (t - k) N PN) as R. pose proof (Z.div_mod (t - k) N ltac:(lia)) as DM.
  exists (a + Z.to_nat ((t - k) mod N))%nat. split; [lia|].
  assert (EK : Z.of_nat (a + Z.to_nat ((t - k) mod N)) - Z.of_nat B - 1 = k + (t - k) mod N) by lia.
  unfold X, Y. rewrite EK. set (q := - ((t - k) / N)).
  assert (ET : k + (t - k) mod N = (q * (p_vscan p + 1) + y) * (p_hscan p + 1) + x) by (unfold q, t, N in *; nia).
  rewrite ET. apply point_xy; try lia.
  assert (0 <= k) by lia.
  assert (0 <= t < N) by (unfold t, N; nia). unfold q. nia.
Qed.

Lemma resolution : forall n, (M + 1 + 2 * HV <= n)%nat ->
  rd_h (st n) = p_hres p mod 2 ^ 11 /\ rd_v (st n) = p_vres p mod 2 ^ 11.
Proof.
  pose proof lk as LK. destruct LK as [ok' ? ? ? ? ?]. destruct ok' as [? ? ? ? ? ? ? ?].
  split.
  - destruct (point_comes M (p_hscan p) (p_vscan p) ltac:(lia) ltac:(lia) ltac:(lia)) as (a & Ha & AX & AY).
    assert (HC : forall m, (S a <= m)%nat -> rd_hc (st m) = trunc 11 (hexp (X m) (Y m))).
    { intros m Hm. induction Hm as [|m Hm IH]; [apply hc_start; [lia|exact AX]|apply hc_next; [lia|exact IH]]. }
    destruct (point_comes (S a) (p_hres p) 0 ltac:(lia) ltac:(lia) ltac:(lia)) as (b & Hb & BX & BY).
    assert (ST : forall m, (S a <= m)%nat -> X m = p_hres p -> Y m < p_vres p -> rd_hc (st m) = p_hres p mod 2 ^ 11).
    { intros m Hm EX EY. rewrite HC by exact Hm. unfold hexp. rewrite EX.
      destruct (Z.ltb_spec (Y m) (p_vres p)); [|lia]. destruct (Z.leb_spec (p_hres p) (p_hres p)); [|lia]. reflexivity. }
    assert (G : forall m, (S b <= m)%nat -> rd_h (st m) = p_hres p mod 2 ^ 11).
    { intros m Hm. induction Hm as [|m Hm IH].
      - destruct b as [|b]; [lia|]. rewrite st_S. cbn [rd_step rd_h]. rewrite fall_at by lia.
        destruct (Hi (S b) ltac:(lia)) as (-> & _ & _). rewrite BX, BY, Z.eqb_refl.
        destruct (Z.ltb_spec 0 (p_vres p)); [|lia]. cbn [andb]. apply ST; lia.
      - destruct m as [|m]; [lia|]. rewrite st_S. cbn [rd_step rd_h]. rewrite fall_at by lia.
        destruct (Hi (S m) ltac:(lia)) as (-> & _ & _).
        destruct (Z.eqb_spec (X (S m)) (p_hres p)); [|exact IH]. destruct (Z.ltb_spec (Y (S m)) (p_vres p)); [|exact IH].
        cbn [andb]. apply ST; lia. }
    apply G. lia.
  - destruct (point_comes (S M) 0 (p_vs_start p) ltac:(lia) ltac:(lia) ltac:(lia)) as (a & Ha & AX & AY).
    assert (VC : forall m, (S a <= m)%nat -> rd_vc (st m) = trunc 11 (vexp (X m) (Y m))).
    { intros m Hm. induction Hm as [|m Hm IH].
      - destruct a as [|a]; [lia|]. apply vc_start; try assumption; lia.
      - destruct m as [|m]; [lia|]. apply vc_next; [lia|exact IH]. }
    destruct (point_comes (S a) 0 (p_vs_start p) ltac:(lia) ltac:(lia) ltac:(lia)) as (b & Hb & BX & BY).
    assert (ST : forall m, (S a <= m)%nat -> X m = 0 -> Y m = p_vs_start p -> rd_vc (st m) = p_vres p mod 2 ^ 11).
    { intros m Hm EX EY. rewrite VC by exact Hm. unfold vexp. rewrite EX, EY, !Z.eqb_refl.
      destruct (Z.ltb_spec (p_vs_start p) (p_vres p)); [lia|]. cbn [andb]. rewrite orb_true_r. reflexivity. }
    assert (G : forall m, (S b <= m)%nat -> rd_v (st m) = p_vres p mod 2 ^ 11).
    { intros m Hm. induction Hm as [|m Hm IH].
      - destruct b as [|b]; [lia|]. rewrite st_S. cbn [rd_step rd_v]. rewrite rise_at by lia.
        destruct (Hi (S b) ltac:(lia)) as (-> & _ & _). rewrite BX, BY, !Z.eqb_refl. cbn [andb]. apply ST; lia.
      - destruct m as [|m]; [lia|]. rewrite st_S. cbn [rd_step rd_v]. rewrite rise_at by lia.
        destruct (Hi (S m) ltac:(lia)) as (-> & _ & _).
        destruct (Z.eqb_spec (X (S m)) 0); [|exact IH]. destruct (Z.eqb_spec (Y (S m)) (p_vs_start p)); [|exact IH].
        cbn [andb]. apply ST; lia. }
    apply G. lia.
Qed.
End Res.
