(** Closed form of the timing generator. *)
From Coq Require Import ZArith List Bool Lia.
From Verif Require Import Hdl Trace TimingModel TimingSpec.
Open Scope Z_scope.

Lemma mod_succ : forall a m, 0 < m -> 0 <= a ->
  (a + 1) mod m = (if a mod m =? m - 1 then 0 else a mod m + 1) /\
  (a + 1) / m = (if a mod m =? m - 1 then a / m + 1 else a / m).
Proof.
  intros a m Hm Ha. pose proof (Z.mod_pos_bound a m Hm) as B. pose proof (Z.div_mod a m ltac:(lia)) as D.
  destruct (Z.eqb_spec (a mod m) (m - 1)) as [E | E].
  - split.
    + symmetry. apply (Z.mod_unique _ m (a / m + 1)); lia.
    + symmetry. apply (Z.div_unique _ m _ 0); lia.
  - split.
    + symmetry. apply (Z.mod_unique _ m (a / m)); lia.
    + symmetry. apply (Z.div_unique _ m _ (a mod m + 1)); lia.
Qed.

Section T.
Variable p : fparam.
Hypothesis ok : params_ok p.

(** State after [a] accepted clocks. *)
Definition tg_at (a : Z) : tg_st :=
  {| t_hact := (1 <=? a) && (scan_x p (a - 1) <? p_hres p);
     t_vact := (1 <=? a) && (scan_y p (a - 1) <? p_vres p);
     t_h := scan_x p a; t_v := scan_y p a;
     t_hs := (1 <=? a) && spec_hsync p (a - 1);
     t_vs := (1 <=? a) && spec_vsync p (a - 1);
     t_last := (1 <=? a) && spec_last p (a - 1) |}.

Lemma tg_at_0 : tg_at 0 = tg_init.
Proof.
  destruct ok. unfold tg_at, scan_x, scan_y. rewrite Z.div_0_l, !Z.mod_0_l by lia. reflexivity.
Qed.

Lemma scan_succ : forall a, 0 <= a ->
  scan_x p (a + 1) = (if scan_x p a =? p_hscan p then 0 else scan_x p a + 1) /\
  scan_y p (a + 1) = (if scan_x p a =? p_hscan p then (if scan_y p a =? p_vscan p then 0 else scan_y p a + 1) else scan_y p a).
Proof.
  intros a Ha. destruct ok. unfold scan_x, scan_y.
  destruct (mod_succ a (p_hscan p + 1) ltac:(lia) Ha) as [-> ->].
  replace (p_hscan p + 1 - 1) with (p_hscan p) by lia. split; [reflexivity|].
  destruct (a mod (p_hscan p + 1) =? p_hscan p); [|reflexivity].
  destruct (mod_succ (a / (p_hscan p + 1)) (p_vscan p + 1) ltac:(lia) ltac:(apply Z.div_pos; lia)) as [-> _].
  replace (p_vscan p + 1 - 1) with (p_vscan p) by lia. reflexivity.
Qed.

Lemma scan_range : forall a, 0 <= scan_x p a <= p_hscan p /\ 0 <= scan_y p a <= p_vscan p.
Proof.
  intros a. destruct ok. unfold scan_x, scan_y.
  pose proof (Z.mod_pos_bound a (p_hscan p + 1) ltac:(lia)).
  pose proof (Z.mod_pos_bound (a / (p_hscan p + 1)) (p_vscan p + 1) ltac:(lia)). lia.
Qed.

Lemma last_scan : forall a, 0 <= a ->
  spec_last p a = (scan_x p a =? p_hscan p) && (scan_y p a =? p_vscan p).
Proof.
  intros a Ha. destruct ok. unfold spec_last, scan_x, scan_y.
  set (H := p_hscan p + 1) in *. set (V := p_vscan p + 1) in *.
  replace (p_hscan p) with (H - 1) by lia. replace (p_vscan p) with (V - 1) by lia.
  assert (0 < H) by lia. assert (0 < V) by lia.
  rewrite Z.rem_mul_r by lia.
  destruct (mod_succ a H ltac:(lia) Ha) as [-> ->].
  pose proof (Z.mod_pos_bound a H ltac:(lia)).
  destruct (Z.eqb_spec (a mod H) (H - 1)) as [E | E]; cbn [andb].
  - destruct (mod_succ (a / H) V ltac:(lia) ltac:(apply Z.div_pos; lia)) as [-> _].
    pose proof (Z.mod_pos_bound (a / H) V ltac:(lia)).
    destruct (Z.eqb_spec ((a / H) mod V) (V - 1)); apply Z.eqb_eq || apply Z.eqb_neq; nia.
  - pose proof (Z.mod_pos_bound (a / H) V ltac:(lia)). apply Z.eqb_neq. nia.
Qed.

(** Flag set at [s] and cleared at [e] (clear wins), while a counter that
    last showed [x'] shows [x]. *)
Lemma window : forall s e x prev m, 0 <= s <= e -> 0 <= x <= m -> e <= m ->
  ((prev = false /\ x = 0) \/
   exists x', prev = (s <=? x') && (x' <? e) /\ (x = x' \/ x = x' + 1 \/ (x' = m /\ x = 0))) ->
  (if x =? e then false else if x =? s then true else prev) = (s <=? x) && (x <? e).
Proof.
  intros s e x prev m Hs Hx Hm P.
  destruct (Z.eqb_spec x e) as [E | E]; [symmetry; apply andb_false_iff; right; apply Z.ltb_ge; lia|].
  destruct (Z.eqb_spec x s) as [F | F]; [symmetry; apply andb_true_iff; split; [apply Z.leb_le | apply Z.ltb_lt]; lia|].
  destruct P as [[-> ->] | (x' & -> & P)].
  - symmetry. apply andb_false_iff. left. apply Z.leb_gt. lia.
  - destruct P as [<- | [P | [P Q]]]; [reflexivity| |].
    + f_equal.
      * destruct (Z.leb_spec s x'), (Z.leb_spec s x); lia || reflexivity.
      * destruct (Z.ltb_spec x' e), (Z.ltb_spec x e); lia || reflexivity.
    + destruct (Z.leb_spec s x'), (Z.leb_spec s x), (Z.ltb_spec x' e), (Z.ltb_spec x e); lia || reflexivity.
Qed.

Lemma window0 : forall e x, 0 <= x -> (0 <=? x) && (x <? e) = (x <? e).
Proof. intros. replace (0 <=? x) with true by (symmetry; apply Z.leb_le; lia). reflexivity. Qed.

Lemma tg_at_succ : forall a, 0 <= a -> tg_step (tg_at a) true true p = tg_at (a + 1).
Proof.
  intros a Ha. destruct (scan_succ a Ha) as [Ex Ey]. destruct (scan_range a) as [Rx Ry].
  pose proof (last_scan a Ha) as El. destruct ok.
  unfold tg_step, tg_at. cbn [negb t_hact t_vact t_h t_v t_hs t_vs t_last].
  replace (1 <=? a + 1) with true by (symmetry; apply Z.leb_le; lia).
  replace (a + 1 - 1) with a by lia. cbn [andb]. rewrite Ex, Ey, El.
  assert (PX : a = 0 /\ scan_x p a = 0 /\ scan_y p a = 0 /\ (1 <=? a) = false \/
     (1 <=? a) = true /\
     (scan_x p a = scan_x p (a - 1) + 1 \/ (scan_x p (a - 1) = p_hscan p /\ scan_x p a = 0)) /\
     (scan_y p a = scan_y p (a - 1) \/ scan_y p a = scan_y p (a - 1) + 1 \/ (scan_y p (a - 1) = p_vscan p /\ scan_y p a = 0))).
  { destruct (Z.eq_dec a 0) as [E | E].
    - left. subst. unfold scan_x, scan_y. rewrite Z.div_0_l, !Z.mod_0_l by lia. auto.
    - right. destruct (scan_succ (a - 1) ltac:(lia)) as [A B]. replace (a - 1 + 1) with a in A, B by lia.
      split; [apply Z.leb_le; lia|].
      destruct (Z.eqb_spec (scan_x p (a - 1)) (p_hscan p)); destruct (Z.eqb_spec (scan_y p (a - 1)) (p_vscan p)); auto 10. }
  assert (WX : forall s e, 0 <= s <= e -> e <= p_hscan p ->
     (if scan_x p a =? e then false else if scan_x p a =? s then true
      else (1 <=? a) && ((s <=? scan_x p (a - 1)) && (scan_x p (a - 1) <? e))) = (s <=? scan_x p a) && (scan_x p a <? e)).
  { intros s e H1 H2. apply (window s e _ _ (p_hscan p)); try lia.
    destruct PX as [(_ & -> & _ & ->) | (-> & P & _)]; [left; split; reflexivity|].
    right. exists (scan_x p (a - 1)). split; [reflexivity|]. tauto. }
  assert (WY : forall s e, 0 <= s <= e -> e <= p_vscan p ->
     (if scan_y p a =? e then false else if scan_y p a =? s then true
      else (1 <=? a) && ((s <=? scan_y p (a - 1)) && (scan_y p (a - 1) <? e))) = (s <=? scan_y p a) && (scan_y p a <? e)).
  { intros s e H1 H2. apply (window s e _ _ (p_vscan p)); try lia.
    destruct PX as [(_ & _ & -> & ->) | (-> & _ & P)]; [left; split; reflexivity|].
    right. exists (scan_y p (a - 1)). split; [reflexivity|]. tauto. }
  destruct (scan_range (a - 1)) as [Rx1 Ry1].
  f_equal.
  - rewrite <- (window0 (p_hres p) (scan_x p a)) by lia. rewrite <- WX by lia. rewrite window0 by lia. reflexivity.
  - rewrite <- (window0 (p_vres p) (scan_y p a)) by lia. rewrite <- WY by lia. rewrite window0 by lia. reflexivity.
  - destruct (Z.eqb_spec (scan_x p a) (p_hscan p)); [reflexivity|]. apply trunc_id. change (2 ^ 12) with 4096. lia.
  - destruct (Z.eqb_spec (scan_x p a) (p_hscan p)); [|reflexivity].
    destruct (Z.eqb_spec (scan_y p a) (p_vscan p)); [reflexivity|]. apply trunc_id. change (2 ^ 12) with 4096. lia.
  - apply WX; lia.
  - apply WY; lia.
Qed.

Lemma tg_run_at : forall i,
  (forall n, tgi_valid (i n) = true /\ tgi_p (i n) = p) ->
  forall n, tg_run i n = tg_at (Z.of_nat (occurrences (fun m => tgi_ready (i m)) 0 n)).
Proof.
  intros i Hi. induction n as [|n IH]; [symmetry; apply tg_at_0|].
  change (tg_run i (S n)) with (tg_step (tg_run i n) (tgi_valid (i n)) (tgi_ready (i n)) (tgi_p (i n))).
  destruct (Hi n) as [-> ->]. rewrite IH.
  cbn [occurrences plus]. rewrite Nat2Z.inj_add.
  destruct (tgi_ready (i n)); cbn [Z.of_nat Pos.of_succ_nat].
  - rewrite tg_at_succ by lia. reflexivity.
  - rewrite Z.add_0_r. reflexivity.
Qed.
(** Restart: after a clock with no parameters the state agrees with the fresh
    one except for the sync flags and the last flag. *)
Definition restart_rel (s : tg_st) (a : Z) : Prop :=
  t_hact s = t_hact (tg_at a) /\ t_vact s = t_vact (tg_at a) /\
  t_h s = t_h (tg_at a) /\ t_v s = t_v (tg_at a) /\
  (1 <= a -> t_last s = t_last (tg_at a)) /\
  (p_hs_end p < a -> t_hs s = t_hs (tg_at a)) /\
  (p_vs_end p * (p_hscan p + 1) < a -> t_vs s = t_vs (tg_at a)).

Lemma restart_rel_0 : forall s r q, restart_rel (tg_step s false r q) 0.
Proof.
  intros s r q. unfold restart_rel. rewrite tg_at_0. cbn. destruct ok.
  repeat split; try reflexivity; intros; nia.
Qed.

Lemma restart_rel_succ : forall s a, 0 <= a -> restart_rel s a ->
  restart_rel (tg_step s true true p) (a + 1).
Proof.
  intros s a Ha (R1 & R2 & R3 & R4 & R5 & R6 & R7). unfold restart_rel. rewrite <- tg_at_succ by exact Ha.
  unfold tg_step. cbn [negb t_hact t_vact t_h t_v t_hs t_vs t_last]. rewrite R1, R2, R3, R4.
  destruct ok. split; [reflexivity|]. split; [reflexivity|]. split; [reflexivity|]. split; [reflexivity|].
  split; [reflexivity|]. split.
  - intros H. destruct (Z.eqb_spec (t_h (tg_at a)) (p_hs_end p)) as [E | E]; [reflexivity|].
    rewrite R6; [reflexivity|]. destruct (Z.eq_dec a (p_hs_end p)) as [F | F]; [|lia].
    exfalso. apply E. cbn [tg_at t_h]. unfold scan_x. rewrite F. apply Z.mod_small. lia.
  - intros H. destruct (Z.eqb_spec (t_v (tg_at a)) (p_vs_end p)) as [E | E]; [reflexivity|].
    rewrite R7; [reflexivity|]. destruct (Z.eq_dec a (p_vs_end p * (p_hscan p + 1))) as [F | F]; [|lia].
    exfalso. apply E. cbn [tg_at t_v]. unfold scan_y. rewrite F, Z.div_mul by lia. apply Z.mod_small. lia.
Qed.

Lemma tg_restart : forall i m,
  tgi_valid (i m) = false ->
  (forall n, (m < n)%nat -> tgi_valid (i n) = true /\ tgi_p (i n) = p) ->
  forall n, restart_rel (tg_run i (S m + n)) (Z.of_nat (occurrences (fun t => tgi_ready (i t)) (S m) n)).
Proof.
  intros i m Hm Hi. induction n as [|n IH].
  - rewrite Nat.add_0_r. change (tg_run i (S m)) with (tg_step (tg_run i m) (tgi_valid (i m)) (tgi_ready (i m)) (tgi_p (i m))).
    rewrite Hm. apply restart_rel_0.
  - rewrite Nat.add_succ_r.
    change (tg_run i (S (S m + n))) with (tg_step (tg_run i (S m + n)) (tgi_valid (i (S m + n)%nat)) (tgi_ready (i (S m + n)%nat)) (tgi_p (i (S m + n)%nat))).
    destruct (Hi (S m + n)%nat ltac:(lia)) as [-> ->].
    cbn [occurrences]. rewrite Nat2Z.inj_add.
    destruct (tgi_ready (i (S m + n)%nat)).
    + apply restart_rel_succ; [lia|exact IH].
    + rewrite Z.add_0_r. exact IH.
Qed.

(** Points of the scan in (frame, line, column) form. *)
Lemma point_xy : forall f y x, 0 <= f -> 0 <= y <= p_vscan p -> 0 <= x <= p_hscan p ->
  let k := (f * (p_vscan p + 1) + y) * (p_hscan p + 1) + x in
  scan_x p k = x /\ scan_y p k = y.
Proof.
  intros f y x Hf Hy Hx k. unfold scan_x, scan_y.
  assert (E : k / (p_hscan p + 1) = f * (p_vscan p + 1) + y).
  { symmetry. apply (Z.div_unique _ _ _ x); unfold k; lia. }
  split.
  - symmetry. apply (Z.mod_unique _ _ (f * (p_vscan p + 1) + y)); unfold k; lia.
  - rewrite E. symmetry. apply (Z.mod_unique _ _ f); lia.
Qed.
End T.
