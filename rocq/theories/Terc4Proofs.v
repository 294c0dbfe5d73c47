(** Lemmas about the HDMI period tracker. *)
From Coq Require Import ZArith List Bool Lia.
From Verif Require Import Hdl TmdsModel TmdsSpec ChanSyncModel Terc4Model Terc4Spec.
Import ListNotations.
Open Scope Z_scope.

(** The stream received by the model's inputs. *)
Definition stream_of (i : nat -> tx_in) : rxs :=
  {| rx_valid := fun t => txi_valid (i t);
     rx_word := fun ch t => ch_raw (match ch with O => txi_0 (i t) | 1%nat => txi_1 (i t) | _ => txi_2 (i t) end) |}.

(** ** One channel *)

Definition ctlb (raw : Z) : bool := existsb (Z.eqb raw) control_tokens.

Lemma ctlb_legal : forall raw, ctlb raw = true <-> legal_control raw.
Proof.
  intros raw. unfold ctlb, legal_control. rewrite existsb_exists. split.
  - intros (w & Hin & E). apply Z.eqb_eq in E; subst.
    cbn in Hin. destruct Hin as [<-|[<-|[<-|[<-|[]]]]];
      [exists 0|exists 1|exists 2|exists 3]; split; try lia; reflexivity.
  - intros (c & Hc & ->). exists (of_bits (dvi_control c)). rewrite Z.eqb_refl. split; [|reflexivity].
    assert (c = 0 \/ c = 1 \/ c = 2 \/ c = 3) as [->|[->|[->| ->]]] by lia; cbn; tauto.
Qed.

Lemma t4_cv_step : forall ch s v raw, t4_cv (t4_step ch s v raw) = v && ctlb raw.
Proof.
  intros ch s v raw. unfold t4_step, ctlb, control_tokens. cbn [nth existsb]. destruct v; [|reflexivity].
  cbn [andb].
  repeat match goal with |- context [if ?b then _ else _] => destruct b eqn:? end; cbn [t4_cv];
    rewrite ?orb_false_r; cbn; try reflexivity.
Qed.

Lemma t4_vgb_step : forall ch s v raw, (ch < 3)%nat ->
  t4_vgb (t4_step ch s v raw) = v && (raw =? video_guard ch).
Proof.
  intros ch s v raw Hch. unfold t4_step. destruct v; [|reflexivity]. cbn [andb].
  change (nth 0 control_tokens 0) with 852. change (nth 1 control_tokens 0) with 171.
  change (nth 2 control_tokens 0) with 340. change (nth 3 control_tokens 0) with 683.
  change data_gb with 307.
  destruct ch as [|[|[|ch]]]; try lia;
    [change (video_gb 0) with 716; change (video_guard 0) with 716
    |change (video_gb 1) with 307; change (video_guard 1) with 307
    |change (video_gb 2) with 716; change (video_guard 2) with 716];
    repeat match goal with |- context [if ?a =? ?b then _ else _] => destruct (Z.eqb_spec a b); subst end;
    cbn; try reflexivity; try lia;
    match goal with |- context [raw =? ?x] => destruct (Z.eqb_spec raw x); [congruence|reflexivity] | _ => idtac end.
Qed.

Lemma t4_dgb_step : forall ch s v raw, (ch < 3)%nat ->
  t4_dgb (t4_step ch s v raw) = v && (raw =? data_guard).
Proof.
  intros ch s v raw Hch. unfold t4_step. destruct v; [|reflexivity]. cbn [andb].
  change (nth 0 control_tokens 0) with 852. change (nth 1 control_tokens 0) with 171.
  change (nth 2 control_tokens 0) with 340. change (nth 3 control_tokens 0) with 683.
  change data_gb with 307. change data_guard with 307.
  destruct ch as [|[|[|ch]]]; try lia;
    [change (video_gb 0) with 716
    |change (video_gb 1) with 307
    |change (video_gb 2) with 716];
    repeat match goal with |- context [if ?a =? ?b then _ else _] => destruct (Z.eqb_spec a b); subst end;
    cbn; try reflexivity; try lia;
    match goal with |- context [raw =? ?x] => destruct (Z.eqb_spec raw x); [congruence|reflexivity] | _ => idtac end.
Qed.

(** Control value after a step. *)
Lemma t4_c_control : forall ch s raw c, 0 <= c < 4 -> raw = of_bits (dvi_control c) ->
  t4_c (t4_step ch s true raw) = c.
Proof.
  intros ch s raw c Hc ->.
  assert (c = 0 \/ c = 1 \/ c = 2 \/ c = 3) as [->|[->|[->| ->]]] by lia; reflexivity.
Qed.

Lemma t4_c_guard : forall ch s raw, raw = data_guard \/ raw = video_guard ch -> (ch < 3)%nat ->
  t4_c (t4_step ch s true raw) = 0.
Proof.
  intros ch s raw H Hch. destruct ch as [|[|[|ch]]]; try lia; destruct H as [->| ->]; reflexivity.
Qed.

Lemma nibble_find : forall raw d,
  t4_nibble raw d = match find (fun d => raw =? terc4 d) (zrange 0 16) with Some x => x | None => d end.
Proof.
  intros raw d. unfold t4_nibble, terc4_tokens.
  change (zrange 0 16) with [0;1;2;3;4;5;6;7;8;9;10;11;12;13;14;15].
  cbn [combine fold_left fst snd find].
  change (terc4 0) with 668. change (terc4 1) with 611. change (terc4 2) with 740. change (terc4 3) with 738.
  change (terc4 4) with 369. change (terc4 5) with 286. change (terc4 6) with 398. change (terc4 7) with 316.
  change (terc4 8) with 716. change (terc4 9) with 313. change (terc4 10) with 412. change (terc4 11) with 710.
  change (terc4 12) with 654. change (terc4 13) with 625. change (terc4 14) with 355. change (terc4 15) with 707.
  repeat match goal with |- context [raw =? ?b] => destruct (Z.eqb_spec raw b); [subst; reflexivity|] end.
  reflexivity.
Qed.

Lemma t4_d_step : forall ch s v raw, t4_d (t4_step ch s v raw) = t4_nibble raw (t4_d s).
Proof.
  intros. unfold t4_step. repeat match goal with |- context [if ?b then _ else _] => destruct b end; reflexivity.
Qed.

(** ** Three channels *)

Section Run.
Variable s0 : tx_st.
Variable i : nat -> tx_in.
Let st := tx_run s0 i.
Let r := stream_of i.

Lemma st_step : forall n, st (S n) = tx_step (st n) (i n).
Proof. reflexivity. Qed.

Lemma all_vgb_step : forall n, all_vgb (st (S n)) = true <-> is_video_guard r n.
Proof.
  intros n. rewrite st_step. unfold all_vgb, tx_step. cbn [tx_ch0 tx_ch1 tx_ch2].
  rewrite !t4_vgb_step by lia. rewrite !andb_true_iff, !Z.eqb_eq.
  unfold is_video_guard, r, stream_of; cbn [rx_valid rx_word]. split.
  - intros [[[V A] [_ B]] [_ C]]. split; [exact V|]. intros [|[|[|ch]]] H; try lia; assumption.
  - intros [V H]. pose proof (H 0%nat ltac:(lia)). pose proof (H 1%nat ltac:(lia)).
    pose proof (H 2%nat ltac:(lia)). tauto.
Qed.

Lemma any_cv_step : forall n, any_cvalid (st (S n)) = true <-> is_control r n.
Proof.
  intros n. rewrite st_step. unfold any_cvalid, tx_step. cbn [tx_ch0 tx_ch1 tx_ch2].
  rewrite !t4_cv_step. rewrite !orb_true_iff, !andb_true_iff, !ctlb_legal.
  unfold is_control, r, stream_of; cbn [rx_valid rx_word]. split.
  - intros [[[V A]|[V A]]|[V A]]; (split; [exact V|]); [exists 0%nat|exists 1%nat|exists 2%nat]; split; auto.
  - intros [V (ch & Hch & H)]. destruct ch as [|[|[|ch]]]; try lia; tauto.
Qed.

Lemma dgb_step : forall n, c2c1_dgb (st (S n)) = true <-> is_data_guard r n.
Proof.
  intros n. rewrite st_step. unfold c2c1_dgb, tx_step. cbn [tx_ch0 tx_ch1 tx_ch2].
  rewrite !t4_dgb_step by lia. rewrite !andb_true_iff, !Z.eqb_eq.
  unfold is_data_guard, r, stream_of; cbn [rx_valid rx_word]. tauto.
Qed.

Lemma not_true : forall b (P : Prop), (b = true <-> P) -> ~ P -> b = false.
Proof. intros b P H N. destruct b; [exfalso; tauto|reflexivity]. Qed.

Lemma guard_ctl0 : forall n, is_video_guard r n -> ctl_code (st (S n)) = 0.
Proof.
  intros n [V H]. rewrite st_step. unfold ctl_code, tx_step. cbn [tx_ch1 tx_ch2].
  cbn in V. rewrite V. pose proof (H 1%nat ltac:(lia)) as H1. pose proof (H 2%nat ltac:(lia)) as H2.
  cbn in H1, H2. rewrite !t4_c_guard; [reflexivity|auto|lia|auto|lia].
Qed.

Lemma preamble_ctl : forall n c1 c2, 0 <= c1 < 4 -> 0 <= c2 < 4 ->
  is_preamble r c1 c2 n -> ctl_code (st (S n)) = c1 + 4 * c2.
Proof.
  intros n c1 c2 H1 H2 (V & _ & A & B). rewrite st_step. unfold ctl_code, tx_step. cbn [tx_ch1 tx_ch2].
  cbn in V, A, B. rewrite V. rewrite (t4_c_control _ _ _ c1 H1 A), (t4_c_control _ _ _ c2 H2 B). reflexivity.
Qed.

Lemma fsm_step : forall n, tx_fsm (st (S n)) = tx_next (st n).
Proof. reflexivity. Qed.

(** ** Why DE is high *)

Hypothesis Hinit : all_vgb s0 = false.
Hypothesis Hfsm : tx_fsm s0 = INIT.

Lemma going_video : forall n,
  (tx_fsm (st n) = GOING_VID -> exists k, n = (k + 2)%nat /\ is_video_guard r k) /\
  (tx_fsm (st n) = VIDEO -> exists k, (k + 3 <= n)%nat /\ is_video_guard r k /\ ~ is_video_guard r (S k) /\
     forall j, (k + 2 <= j)%nat -> (j + 2 <= n)%nat -> ~ is_control r j).
Proof.
  induction n as [|n [IHg IHv]].
  - change (st 0) with s0. rewrite Hfsm. split; discriminate.
  - rewrite fsm_step.
    assert (HG : all_vgb (st n) = true -> exists k, S n = (k + 2)%nat /\ is_video_guard r k).
    { intros E. destruct n as [|k]; [change (st 0) with s0 in E; congruence|].
      exists k. split; [lia|]. apply all_vgb_step, E. }
    split.
    + unfold tx_next. destruct (tx_fsm (st n)); intros H;
        repeat match type of H with context [if ?b then _ else _] => destruct b eqn:? end;
        try discriminate; apply HG; reflexivity.
    + unfold tx_next. intros H. destruct (tx_fsm (st n)) eqn:F;
        repeat match type of H with context [if ?b then _ else _] => destruct b eqn:? end;
        try discriminate; clear H.
      * destruct (IHg eq_refl) as (k & -> & G). exists k.
        assert (G' : ~ is_video_guard r (S k)).
        { intros X. apply all_vgb_step in X. replace (S (S k)) with (k + 2)%nat in X by lia. congruence. }
        repeat split; try assumption; try apply G; lia.
      * destruct (IHv eq_refl) as (k & Hk & G & G' & Hc). exists k.
        repeat split; try assumption; try apply G; try lia.
        intros j Hj1 Hj2. destruct (Nat.eq_dec (j + 2) (S n)) as [E|E]; [|apply Hc; lia].
        intros X. apply any_cv_step in X. replace (S j) with n in X by lia. congruence.
Qed.

End Run.

(** ** A video period *)

Section Video.
Variable s0 : tx_st.
Variable i : nat -> tx_in.
Let st := tx_run s0 i.
Let r := stream_of i.

(** States in which the tracker recognises a video guard band. *)
Definition listening (f : t4_fsm) : Prop := f = INIT \/ f = PREAM_T4 \/ f = PREAM_VID \/ f = TERC4.

Lemma guard_not_ctl : forall n, is_video_guard r n -> ~ is_control r n.
Proof.
  intros n [V H] [_ (ch & Hch & C)]. rewrite H in C by exact Hch.
  apply ctlb_legal in C. destruct ch as [|[|[|ch]]]; try lia; discriminate.
Qed.

Lemma to_going : forall g, listening (tx_fsm (st (S g))) -> is_video_guard r g ->
  tx_fsm (st (S (S g))) = GOING_VID.
Proof.
  intros g L G. unfold st. rewrite fsm_step. fold st.
  pose proof (proj2 (all_vgb_step s0 i g) G) as A. fold st in A.
  pose proof (guard_ctl0 s0 i g G) as C. fold st in C.
  pose proof (not_true _ _ (any_cv_step s0 i g) (guard_not_ctl g G)) as N. fold st in N.
  unfold tx_next. destruct L as [->|[->|[->| ->]]]; rewrite ?A, ?C, ?N; reflexivity.
Qed.

Lemma guards : forall g G, listening (tx_fsm (st (S g))) -> (1 <= G)%nat ->
  (forall t, (g <= t < g + G)%nat -> is_video_guard r t) ->
  forall t, (g <= t < g + G)%nat -> tx_fsm (st (S (S t))) = GOING_VID.
Proof.
  intros g G L HG H. induction t as [|t IH]; intros Ht.
  - assert (g = 0%nat) by lia. subst. apply to_going; [exact L|apply H; lia].
  - destruct (Nat.eq_dec (S t) g) as [E|E].
    + rewrite E. apply to_going; [exact L|apply H; lia].
    + unfold st. rewrite fsm_step. fold st. unfold tx_next. rewrite IH by lia.
      pose proof (proj2 (all_vgb_step s0 i (S t)) (H (S t) ltac:(lia))) as A. fold st in A.
      rewrite A. reflexivity.
Qed.

(** The FSM enters VIDEO with the first word that is not a guard band and stays
    up to the first control word. *)
Lemma video_period : forall g G L, listening (tx_fsm (st (S g))) -> (1 <= G)%nat -> (1 <= L)%nat ->
  (forall t, (g <= t < g + G)%nat -> is_video_guard r t) ->
  ~ is_video_guard r (g + G) ->
  (forall t, (g + G <= t < g + G + L)%nat -> ~ is_control r t) ->
  (forall t, (g + G <= t < g + G + L)%nat -> tx_fsm (st (S (S t))) = VIDEO) /\
  (is_control r (g + G + L) -> tx_fsm (st (S (S (g + G + L)))) = INIT).
Proof.
  intros g G L HL HG H1 Hg Hng Hc.
  assert (HV : forall t, (g + G <= t < g + G + L)%nat -> tx_fsm (st (S (S t))) = VIDEO).
  { induction t as [|t IH]; intros Ht; [lia|].
    unfold st. rewrite fsm_step. fold st. unfold tx_next.
    destruct (Nat.eq_dec (S t) (g + G)) as [E|E].
    - rewrite (guards g G HL HG Hg t) by lia.
      pose proof (not_true _ _ (all_vgb_step s0 i (S t))) as A. fold st r in A. rewrite E in A.
      rewrite E. rewrite A by exact Hng. reflexivity.
    - rewrite IH by lia.
      pose proof (not_true _ _ (any_cv_step s0 i (S t))) as A. fold st r in A.
      rewrite A by (apply Hc; lia). reflexivity. }
  split; [exact HV|]. intros HC. unfold st. rewrite fsm_step. fold st. unfold tx_next.
  replace (S (g + G + L)) with (S (S (g + G + L - 1))) by lia. rewrite HV by lia.
  replace (S (S (g + G + L - 1))) with (S (g + G + L)) by lia.
  pose proof (proj2 (any_cv_step s0 i (g + G + L)) HC) as A. fold st in A. rewrite A. reflexivity.
Qed.

(** ** A data island *)

Lemma packet_facts : forall t, is_packet r t ->
  ~ is_control r t /\ ~ is_video_guard r t /\ ~ is_data_guard r t.
Proof.
  intros t [V H].
  assert (F : forall d, 0 <= d < 16 -> ctlb (terc4 d) = false /\ terc4 d <> 307).
  { intros d Hd. pose proof (forallb_zrange 0 16 (fun d => negb (ctlb (terc4 d)) && negb (terc4 d =? 307))
      ltac:(vm_compute; reflexivity) d ltac:(lia)) as X.
    cbv beta in X. apply andb_true_iff in X. destruct X as [X Y].
    apply negb_true_iff in X, Y. apply Z.eqb_neq in Y. tauto. }
  repeat split.
  - intros [_ (ch & Hch & C)]. destruct (H ch Hch) as (d & Hd & E). rewrite E in C.
    apply ctlb_legal in C. destruct (F d Hd). congruence.
  - intros [_ G]. destruct (H 1%nat ltac:(lia)) as (d & Hd & E).
    rewrite G in E by lia. destruct (F d Hd). change (video_guard 1) with 307 in E. congruence.
  - intros [_ [G _]]. destruct (H 1%nat ltac:(lia)) as (d & Hd & E).
    rewrite G in E. destruct (F d Hd). change data_guard with 307 in E. congruence.
Qed.

Lemma dguard_facts : forall t, is_data_guard r t -> ~ is_video_guard r t /\
  (is_control r t <-> legal_control (rx_word r 0 t)).
Proof.
  intros t (V & A & B). split.
  - intros [_ G]. rewrite G in B by lia. discriminate.
  - split.
    + intros [_ (ch & Hch & C)]. destruct ch as [|[|[|ch]]]; try lia; [exact C| |];
        rewrite ?A, ?B in C; apply ctlb_legal in C; discriminate.
    + intros C. split; [exact V|]. exists 0%nat. split; [lia|exact C].
Qed.

Lemma preamble_facts : forall t c1 c2, is_preamble r c1 c2 t -> ~ is_video_guard r t /\ ~ is_data_guard r t.
Proof.
  intros t c1 c2 (V & H & _). split.
  - intros [_ G]. pose proof (H 1%nat ltac:(lia)) as C. rewrite G in C by lia. apply ctlb_legal in C. discriminate.
  - intros (_ & G & _). pose proof (H 1%nat ltac:(lia)) as C. rewrite G in C. apply ctlb_legal in C. discriminate.
Qed.

(** States from which the data island preamble is recognised. *)
Lemma island : forall p P G L Q, (2 <= P)%nat -> (1 <= G)%nat -> (1 <= L)%nat -> (1 <= Q)%nat ->
  tx_fsm (st (S p)) = INIT \/ tx_fsm (st (S p)) = PREAM_T4 \/ tx_fsm (st (S p)) = PREAM_VID ->
  (forall t, (p <= t < p + P)%nat -> is_preamble r 1 1 t) ->
  (forall t, (p + P <= t < p + P + G)%nat -> is_data_guard r t) ->
  (forall t, (p + P + G <= t < p + P + G + L)%nat -> is_packet r t) ->
  (forall t, (p + P + G + L <= t < p + P + G + L + Q)%nat ->
     is_data_guard r t /\ ~ legal_control (rx_word r 0 t)) ->
  (forall t, (p + P <= t < p + P + G)%nat -> tx_fsm (st (S (S t))) = GOING_T4) /\
  (forall t, (p + P + G <= t < p + P + G + L)%nat -> tx_fsm (st (S (S t))) = TERC4) /\
  (forall t, (p + P + G + L <= t < p + P + G + L + Q)%nat -> tx_fsm (st (S (S t))) = LEAVE_T4) /\
  (~ is_data_guard r (p + P + G + L + Q) -> tx_fsm (st (S (S (p + P + G + L + Q)))) = INIT).
Proof.
  intros p P G L Q HP HG HL HQ H0 Hpre Hdg Hpk Htr.
  assert (AV : forall t, ~ is_video_guard r t -> all_vgb (st (S t)) = false)
    by (intros t; apply (not_true _ _ (all_vgb_step s0 i t))).
  assert (CV : forall t, ~ is_control r t -> any_cvalid (st (S t)) = false)
    by (intros t; apply (not_true _ _ (any_cv_step s0 i t))).
  assert (DG : forall t, ~ is_data_guard r t -> c2c1_dgb (st (S t)) = false)
    by (intros t; apply (not_true _ _ (dgb_step s0 i t))).
  assert (DT : forall t, is_data_guard r t -> c2c1_dgb (st (S t)) = true)
    by (intros t; apply (dgb_step s0 i t)).
  assert (PC : forall t, (p <= t < p + P)%nat -> ctl_code (st (S t)) = 5)
    by (intros t Ht; apply (preamble_ctl s0 i t 1 1); [lia|lia|apply Hpre, Ht]).
  assert (ST : forall n, tx_fsm (st (S n)) = tx_next (st n)) by reflexivity.
  (* after the second preamble word the tracker is in PREAM_T4 *)
  assert (A : forall t, (S p <= t < p + P)%nat -> tx_fsm (st (S (S t))) = PREAM_T4).
  { assert (B1 : tx_fsm (st (S (S p))) = PREAM_T4 \/ tx_fsm (st (S (S p))) = INIT).
    { rewrite ST. unfold tx_next. destruct (preamble_facts p _ _ (Hpre p ltac:(lia))) as [N1 N2].
      rewrite AV, DG, PC by (assumption || lia). cbn [Z.eqb Pos.eqb].
      destruct H0 as [->|[->| ->]]; auto. }
    induction t as [|t IH]; intros Ht; [lia|].
    destruct (preamble_facts (S t) _ _ (Hpre (S t) ltac:(lia))) as [N1 N2].
    rewrite ST. unfold tx_next. rewrite AV, DG, PC by (assumption || lia). cbn [Z.eqb Pos.eqb].
    destruct (Nat.eq_dec (S t) (S p)) as [E|E].
    - replace (S (S t)) with (S (S p)) by lia. destruct B1 as [->| ->]; reflexivity.
    - rewrite IH by lia. reflexivity. }
  assert (B : forall t, (p + P <= t < p + P + G)%nat -> tx_fsm (st (S (S t))) = GOING_T4).
  { induction t as [|t IH]; intros Ht; [lia|].
    rewrite ST. unfold tx_next. rewrite (DT (S t)) by (apply Hdg; lia).
    rewrite (AV (S t)) by (apply dguard_facts, Hdg; lia).
    destruct (Nat.eq_dec (S t) (p + P)) as [E|E].
    - rewrite A by lia. reflexivity.
    - rewrite IH by lia. reflexivity. }
  assert (C : forall t, (p + P + G <= t < p + P + G + L)%nat -> tx_fsm (st (S (S t))) = TERC4).
  { induction t as [|t IH]; intros Ht; [lia|].
    destruct (packet_facts (S t) (Hpk (S t) ltac:(lia))) as (N1 & N2 & N3).
    rewrite ST. unfold tx_next. rewrite AV, CV, DG by assumption.
    destruct (Nat.eq_dec (S t) (p + P + G)) as [E|E].
    - rewrite B by lia. reflexivity.
    - rewrite IH by lia. reflexivity. }
  assert (D : forall t, (p + P + G + L <= t < p + P + G + L + Q)%nat -> tx_fsm (st (S (S t))) = LEAVE_T4).
  { induction t as [|t IH]; intros Ht; [lia|].
    destruct (Htr (S t) ltac:(lia)) as [T1 T2]. destruct (dguard_facts _ T1) as [N1 N2].
    rewrite ST. unfold tx_next. rewrite AV, CV, DT by tauto.
    destruct (Nat.eq_dec (S t) (p + P + G + L)) as [E|E].
    - rewrite C by lia. reflexivity.
    - rewrite IH by lia. reflexivity. }
  repeat split; try assumption.
  intros N. rewrite ST. unfold tx_next.
  replace (S (p + P + G + L + Q)) with (S (S (p + P + G + L + Q - 1))) by lia. rewrite D by lia.
  replace (S (S (p + P + G + L + Q - 1))) with (S (p + P + G + L + Q)) by lia.
  rewrite DG by exact N. reflexivity.
Qed.

End Video.
