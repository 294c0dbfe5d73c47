(** The EDID slave settles between two samples of the bus; effect of one
    sample in each phase of a transaction. *)
From Coq Require Import ZArith List Bool Lia Arith.
From Verif Require Import Hdl EdidModel EdidSpec.
Import ListNotations.
Open Scope nat_scope.

Fixpoint steps {A} (n : nat) (f : A -> A) (x : A) : A :=
  match n with O => x | S m => steps m f (f x) end.

Ltac ed_eval :=
  match goal with
  | |- context [ed_step ?m ?a ?h ?s ?d {| ec_scl_r := ?x1; ec_sda_r := ?x2; ec_cnt := ?x3; ec_din := ?x4;
       ec_isr := ?x5; ec_off := ?x6; ec_dat := ?x7; ec_dbit := ?x8; ec_ddrv := ?x9; ec_drv := ?x10; ec_fsm := ?x11 |}] =>
      let e := constr:(ed_step m a h s d {| ec_scl_r := x1; ec_sda_r := x2; ec_cnt := x3; ec_din := x4;
       ec_isr := x5; ec_off := x6; ec_dat := x7; ec_dbit := x8; ec_ddrv := x9; ec_drv := x10; ec_fsm := x11 |}) in
      let v := eval cbv beta iota zeta delta [ed_step sda_drv zero_drv ec_scl_r ec_sda_r ec_cnt ec_din ec_isr
         ec_off ec_dat ec_dbit ec_ddrv ec_drv ec_fsm andb orb negb] in e in
      change e with v
  end.

Section P.
Variable mem : Z -> Z.
Variable ab : Z.
Notation step := (ed_step mem ab true).

(** [c] no longer moves while the sampled bus stays at the level it last saw. *)
Definition settled (c : ed_core) : Prop := step (ec_scl_r c) (ec_sda_r c) c = c.

Lemma settle_steady : forall scl sda c, ec_scl_r c = scl -> ec_sda_r c = sda ->
  settled (steps 9 (step scl sda) c).
Proof.
  intros xscl xsda [scl sda cnt din isr off dat dbit ddrv drv fsm]. cbn [ec_scl_r ec_sda_r]. intros <- <-.
  destruct (Nat.eqb cnt 8) eqn:C8;
  [ apply Nat.eqb_eq in C8; subst cnt | ];
  destruct scl, sda, fsm;
  try (destruct (Z.eqb (slice 1 7 din) 80) eqn:A; destruct (Z.testbit din 0) eqn:R); destruct isr;
  cbn [steps];
  do 9 (ed_eval; rewrite ?C8, ?A, ?R, ?Nat.eqb_refl; cbn [andb orb negb]); 
  unfold settled; cbn [ec_scl_r ec_sda_r]; ed_eval; rewrite ?C8, ?A, ?R, ?Nat.eqb_refl; try reflexivity.
Qed.

Lemma steps_add : forall A (f : A -> A) a b x, steps (a + b) f x = steps b f (steps a f x).
Proof. induction a as [|a IH]; intros b x; [reflexivity|]. cbn [Nat.add steps]. apply IH. Qed.

Lemma steps_r : forall A (f : A -> A) n x, steps (S n) f x = f (steps n f x).
Proof. intros. replace (S n) with (n + 1) by lia. rewrite steps_add. reflexivity. Qed.

Lemma step_scl : forall scl sda c, ec_scl_r (step scl sda c) = scl.
Proof. reflexivity. Qed.
Lemma step_sda : forall scl sda c, ec_sda_r (step scl sda c) = sda.
Proof. reflexivity. Qed.

Lemma steps_scl : forall n scl sda c, ec_scl_r (steps (S n) (step scl sda) c) = scl.
Proof. intros. rewrite steps_r. reflexivity. Qed.
Lemma steps_sda : forall n scl sda c, ec_sda_r (steps (S n) (step scl sda) c) = sda.
Proof. intros. rewrite steps_r. reflexivity. Qed.

(** Effect of one sample of the bus: ten clocks are enough to settle. *)
Definition bstep (c : ed_core) (o : obs) : ed_core := steps 10 (step (fst o) (snd o)) c.

Lemma bstep_settled : forall c o, settled (bstep c o).
Proof.
  intros c [scl sda]. unfold bstep. cbn [fst snd]. change 10 with (1 + 9). rewrite steps_add.
  apply settle_steady; reflexivity.
Qed.

Lemma bstep_scl : forall c o, ec_scl_r (bstep c o) = fst o.
Proof. intros c [scl sda]. apply (steps_scl 9). Qed.
Lemma bstep_sda : forall c o, ec_sda_r (bstep c o) = snd o.
Proof. intros c [scl sda]. apply (steps_sda 9). Qed.

Lemma settled_steps : forall n c, settled c -> steps n (step (ec_scl_r c) (ec_sda_r c)) c = c.
Proof. intros n c H. induction n as [|n IH]; [reflexivity|]. rewrite steps_r, IH. exact H. Qed.

Lemma settled_bstep : forall c o, settled c -> ec_scl_r c = fst o -> ec_sda_r c = snd o -> bstep c o = c.
Proof. intros c o H A B. unfold bstep. rewrite <- A, <- B. apply settled_steps, H. Qed.

Lemma steps_bstep : forall n c o, 10 <= n -> steps n (step (fst o) (snd o)) c = bstep c o.
Proof.
  intros n c o H. replace n with (10 + (n - 10)) by lia. rewrite steps_add.
  assert (E : bstep c o = steps 10 (step (fst o) (snd o)) c) by reflexivity. rewrite <- E. clear E.
  pose proof (settled_steps (n - 10) (bstep c o) (bstep_settled c o)) as K.
  rewrite bstep_scl, bstep_sda in K. exact K.
Qed.

(** A settled state. *)
Definition mk fsm cnt din isr off ddrv dbit scl sda : ed_core :=
  {| ec_scl_r := scl; ec_sda_r := sda; ec_cnt := cnt; ec_din := din; ec_isr := isr; ec_off := off;
     ec_dat := mem off; ec_dbit := dbit; ec_ddrv := ddrv;
     ec_drv := zero_drv fsm || (ddrv && negb dbit); ec_fsm := fsm |}.

Definition shift (b : bool) (d : Z) : Z := (b2z b + 2 * slice 0 7 d)%Z.

Ltac go := unfold bstep, mk; cbn [fst snd zero_drv]; cbn [steps].
Ltac ev := ed_eval; cbn [andb orb negb Nat.eqb].

Lemma low_rx : forall f cnt din isr off dd db scl sda x,
  f = RCV_ADDRESS \/ f = RCV_OFFSET -> Nat.eqb cnt 8 = false ->
  bstep (mk f cnt din isr off dd db scl sda) (false, x) = mk f cnt din isr off dd db false x.
Proof.
  intros f cnt din isr off dd db scl sda x [-> | ->] C; go; do 10 (ev; rewrite ?C); reflexivity.
Qed.

Lemma rise_rx : forall f cnt din isr off dd db b,
  f = RCV_ADDRESS \/ f = RCV_OFFSET -> cnt < 7 ->
  bstep (mk f cnt din isr off dd db false b) (true, b) = mk f (S cnt) (shift b din) isr off dd db true b.
Proof.
  intros f cnt din isr off dd db b [-> | ->] C;
  assert (C1 : Nat.eqb cnt 8 = false) by (apply Nat.eqb_neq; lia);
  assert (C2 : Nat.eqb cnt 7 = false) by (apply Nat.eqb_neq; lia);
  destruct b; go; do 10 (ev; rewrite ?C1; cbn [Nat.eqb]; rewrite ?C2); reflexivity.
Qed.

Lemma rise_address : forall din isr off dd db b, slice 1 7 (shift b din) = 80%Z ->
  bstep (mk RCV_ADDRESS 7 din isr off dd db false b) (true, b) =
  mk ACK_ADDRESS0 8 (shift b din) (Z.testbit (shift b din) 0) off dd db true b.
Proof.
  intros din isr off dd db b A. apply Z.eqb_eq in A. unfold shift in A.
  destruct b; go; unfold shift; do 10 (ev; rewrite ?A); reflexivity.
Qed.

Lemma rise_other : forall din isr off dd db b, slice 1 7 (shift b din) <> 80%Z ->
  bstep (mk RCV_ADDRESS 7 din isr off dd db false b) (true, b) =
  mk WAIT_START 8 (shift b din) isr off dd db true b.
Proof.
  intros din isr off dd db b A. apply Z.eqb_neq in A. unfold shift in A.
  destruct b; go; unfold shift; do 10 (ev; rewrite ?A); reflexivity.
Qed.

Lemma rise_offset : forall din isr off dd db b,
  bstep (mk RCV_OFFSET 7 din isr off dd db false b) (true, b) =
  mk ACK_OFFSET0 8 (shift b din) isr (trunc ab (shift b din)) dd db true b.
Proof.
  intros din isr off dd db b. destruct b; go; unfold shift; do 10 ev; reflexivity.
Qed.

Ltac bools := repeat match goal with x : bool |- _ => destruct x end.

Lemma ack_low : forall f0 f1 din isr off dd db scl sda x,
  (f0 = ACK_ADDRESS0 /\ f1 = ACK_ADDRESS1) \/ (f0 = ACK_ADDRESS1 /\ f1 = ACK_ADDRESS1) \/
  (f0 = ACK_OFFSET0 /\ f1 = ACK_OFFSET1) \/ (f0 = ACK_OFFSET1 /\ f1 = ACK_OFFSET1) ->
  bstep (mk f0 8 din isr off dd db scl sda) (false, x) = mk f1 8 din isr off dd db false x.
Proof.
  intros f0 f1 din isr off dd db scl sda x H.
  destruct H as [[-> ->] | [[-> ->] | [[-> ->] | [-> ->]]]]; go; do 10 ev; reflexivity.
Qed.

Lemma ack_rise : forall f0 f1 din isr off dd db,
  (f0 = ACK_ADDRESS1 /\ f1 = ACK_ADDRESS2) \/ (f0 = ACK_OFFSET1 /\ f1 = ACK_OFFSET2) ->
  bstep (mk f0 8 din isr off dd db false false) (true, false) = mk f1 0 din isr off dd db true false.
Proof.
  intros f0 f1 din isr off dd db H.
  destruct H as [[-> ->] | [-> ->]]; go; do 10 ev; reflexivity.
Qed.

Lemma ack_write : forall din off dd db sda x,
  bstep (mk ACK_ADDRESS2 0 din false off dd db true sda) (false, x) = mk RCV_OFFSET 0 din false off dd db false x.
Proof. intros; go; do 10 ev; reflexivity. Qed.

Lemma ack_read : forall din off dd db sda x,
  bstep (mk ACK_ADDRESS2 0 din true off dd db true sda) (false, x) =
  mk READ 0 din true off true (Z.testbit (mem off) 7) false x.
Proof. intros; go; do 10 ev; reflexivity. Qed.

Lemma ack_offset : forall din isr off dd db sda x,
  bstep (mk ACK_OFFSET2 0 din isr off dd db true sda) (false, x) = mk RCV_ADDRESS 0 din isr off dd db false x.
Proof. intros; go; do 10 ev; reflexivity. Qed.

Lemma read_low : forall cnt din isr off dd db scl sda x, cnt < 8 ->
  bstep (mk READ cnt din isr off dd db scl sda) (false, x) =
  mk READ cnt din isr off true (Z.testbit (mem off) (7 - Z.of_nat cnt)) false x.
Proof.
  intros cnt din isr off dd db scl sda x C.
  assert (C1 : Nat.eqb cnt 8 = false) by (apply Nat.eqb_neq; lia).
  go; do 10 (ev; rewrite ?C1); reflexivity.
Qed.

Lemma read_rise : forall cnt din isr off db b, cnt < 8 ->
  bstep (mk READ cnt din isr off true db false b) (true, b) =
  mk READ (S cnt) (shift b din) isr off true db true b.
Proof.
  intros cnt din isr off db b C.
  assert (C1 : Nat.eqb cnt 8 = false) by (apply Nat.eqb_neq; lia).
  destruct b; go; unfold shift; do 10 (ev; rewrite ?C1); reflexivity.
Qed.

Lemma readack_low : forall f din isr off dd db scl sda x, f = READ \/ (f = ACK_READ /\ dd = false) ->
  bstep (mk f 8 din isr off dd db scl sda) (false, x) = mk ACK_READ 8 din isr off false db false x.
Proof. intros f din isr off dd db scl sda x [-> | [-> ->]]; go; do 10 ev; reflexivity. Qed.

Lemma readack_rise : forall din isr off db b,
  bstep (mk ACK_READ 8 din isr off false db false b) (true, b) =
  mk (if b then WAIT_START else READ) 0 din isr (trunc ab (off + 1)) false db true b.
Proof. intros din isr off db b; destruct b; go; do 10 ev; reflexivity. Qed.

Lemma settled_fields : forall c, settled c ->
  ec_dat c = mem (ec_off c) /\ ec_drv c = sda_drv c /\
  (ec_fsm c = RCV_ADDRESS -> Nat.eqb (ec_cnt c) 8 = false) /\
  (ec_fsm c = RCV_OFFSET -> Nat.eqb (ec_cnt c) 8 = false).
Proof.
  intros [scl sda cnt din isr off dat dbit ddrv drv fsm] H. unfold settled in H.
  cbn [ec_scl_r ec_sda_r] in H.
  pose proof (f_equal ec_dat H) as H1. pose proof (f_equal ec_drv H) as H2. pose proof (f_equal ec_fsm H) as H3.
  cbn in H1, H2, H3. cbn [ec_dat ec_off ec_drv ec_fsm ec_cnt]. repeat split.
  - congruence.
  - rewrite <- H2. reflexivity.
  - intros ->. destruct (Nat.eqb cnt 8); [|reflexivity]. exfalso.
    destruct scl, sda; cbn in H3; destruct (slice 1 7 din =? 80)%Z; discriminate.
  - intros ->. destruct (Nat.eqb cnt 8); [|reflexivity]. exfalso.
    destruct scl, sda; cbn in H3; discriminate.
Qed.

Lemma start_seen : forall c, settled c -> ec_scl_r c = true -> ec_sda_r c = true -> ec_drv c = false ->
  ec_ddrv c && negb (ec_dbit c) = false /\
  bstep c (true, false) = mk RCV_ADDRESS 0 (ec_din c) (ec_isr c) (ec_off c) (ec_ddrv c) (ec_dbit c) true false.
Proof.
  intros c S. pose proof (settled_fields c S) as (H1 & H2 & H3 & H4). clear S.
  destruct c as [scl sda cnt din isr off dat dbit ddrv drv fsm].
  unfold sda_drv in H2.
  cbn [ec_scl_r ec_sda_r ec_drv ec_ddrv ec_dbit ec_din ec_isr ec_off ec_dat ec_fsm ec_cnt] in *.
  intros -> -> ->. symmetry in H2. apply orb_false_iff in H2. destruct H2 as [Z0 R]. subst dat.
  split; [exact R|].
  assert (R' : (ddrv && negb dbit)%bool = false) by exact R.
  destruct fsm; try discriminate Z0; first [specialize (H3 eq_refl) | clear H3]; first [specialize (H4 eq_refl) | clear H4]; clear Z0;
    go; do 10 (ed_eval; try rewrite ?H3; try rewrite ?H4; cbn [andb orb negb Nat.eqb]);
    destruct ddrv, dbit; try discriminate R; reflexivity.
Qed.
End P.
