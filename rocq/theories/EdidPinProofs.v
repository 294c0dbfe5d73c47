(** From levels at the pins to samples of the bus. *)
From Coq Require Import ZArith List Bool Lia Arith.
From Verif Require Import Hdl EdidModel EdidSpec EdidPinSpec EdidSettle EdidProofs EdidLink.
Import ListNotations.
Open Scope nat_scope.

(** Every 64th entry, the first one after [p] others. *)
Fixpoint pick (p : nat) (l : list obs) : list obs :=
  match l with
  | [] => []
  | o :: r => match p with O => o :: pick 63 r | S q => pick q r end
  end.

Lemma pick_bounds : forall l p, p < 64 -> length l <= p + 64 * length (pick p l) < length l + 64.
Proof.
  induction l as [|o l IH]; intros p P; [cbn; lia|]. cbn [pick length]. destruct p as [|q].
  - specialize (IH 63 ltac:(lia)). cbn [length]. lia.
  - specialize (IH q ltac:(lia)). lia.
Qed.

Lemma pick_app : forall a b p, p < 64 -> pick p (a ++ b) = pick p a ++ pick (p + 64 * length (pick p a) - length a) b.
Proof.
  induction a as [|o a IH]; intros b p P; [cbn [app pick length]; rewrite Nat.mul_0_r, Nat.add_0_r, Nat.sub_0_r; reflexivity|].
  cbn [app pick]. destruct p as [|q].
  - rewrite IH by lia. cbn [app length]. f_equal. f_equal. f_equal. lia.
  - rewrite IH by lia. reflexivity.
Qed.

Lemma pick_repeat : forall o n p, exists k, pick p (repeat o n) = repeat o k.
Proof.
  intros o. induction n as [|n IH]; intros p; [exists 0; reflexivity|]. cbn [repeat pick]. destruct p as [|q].
  - destruct (IH 63) as [k ->]. exists (S k). reflexivity.
  - apply IH.
Qed.

Lemma pick_lows : forall xs p, exists ys, pick p (map (fun x => (false, x)) xs) = map (fun x : bool => (false, x)) ys.
Proof.
  induction xs as [|x xs IH]; intros p; [exists []; reflexivity|]. cbn [map pick]. destruct p as [|q].
  - destruct (IH 63) as [k ->]. exists (x :: k). reflexivity.
  - apply IH.
Qed.

(** What is sampled of one bit. *)
Lemma pick_slot : forall p m xs l h, p < 64 -> 128 <= length xs + l -> 64 <= l -> 64 <= h ->
  exists ys a b, 1 <= a /\ 2 <= length ys + a /\ 1 <= b /\
    pick p (pin_slot m xs l h) = map (fun x => (false, x)) ys ++ repeat (false, m) a ++ repeat (true, m) b /\
    length xs + l <= p + 64 * (length ys + a) < length xs + l + 64 /\
    length xs + l + h <= p + 64 * (length ys + a + b) < length xs + l + h + 64.
Proof.
  intros p m xs l h P A B C.
  destruct (pick_lows xs p) as [ys Y]. pose proof (pick_bounds (map (fun x => (false, x)) xs) p P) as PB. rewrite Y, !map_length in PB.
  set (p1 := p + 64 * length ys - length xs). assert (P1 : p1 < 64) by (unfold p1; lia).
  destruct (pick_repeat (false, m) l p1) as [a Ea]. pose proof (pick_bounds (repeat (false, m) l) p1 P1) as PB1. unfold obs in *. rewrite Ea, !repeat_length in PB1.
  set (p2 := p1 + 64 * a - l). assert (P2 : p2 < 64) by (unfold p2; lia).
  destruct (pick_repeat (true, m) h p2) as [b Eb]. pose proof (pick_bounds (repeat (true, m) h) p2 P2) as PB2. unfold obs in *. rewrite Eb, !repeat_length in PB2.
  exists ys, a, b. unfold p2, p1 in *. split; [lia|]. split; [lia|]. split; [lia|]. split; [|lia].
  unfold pin_slot. unfold obs in *. rewrite pick_app by exact P. rewrite Y, !map_length. rewrite pick_app by lia. rewrite Ea, !repeat_length, Eb. reflexivity.
Qed.

Lemma is_slot_of : forall m ys a b, 1 <= a -> 2 <= length ys + a -> 1 <= b ->
  is_slot m (map (fun x => (false, x)) ys ++ repeat (false, m) a ++ repeat (true, m) b).
Proof.
  intros m ys a b A Y B. destruct a as [|a]; [lia|]. destruct b as [|b]; [lia|].
  assert (R : repeat (false, m) (S a) = map (fun x => (false, x)) (repeat m a) ++ [(false, m)]).
  { clear. induction a as [|a IH]; [reflexivity|]. change (repeat (false, m) (S (S a))) with ((false, m) :: repeat (false, m) (S a)). rewrite IH. reflexivity. }
  rewrite R, <- app_assoc, app_assoc, <- map_app.
  destruct ys as [|x ys].
  - destruct a as [|a]; [cbn [length] in Y; lia|]. exact (Is_slot m m (repeat m a) b).
  - exact (Is_slot m x (ys ++ repeat m a) b).
Qed.

Lemma bits_lows : forall (l : list obs) s rest, Forall (fun o => fst o = false) l -> l <> [] -> bits_seen s (l ++ rest) = bits_seen false rest.
Proof.
  induction l as [|[c d] l IH]; intros s rest F N; [congruence|]. inversion F as [|? ? F1 F2]; subst. cbn [fst] in F1. subst c.
  cbn [app bits_seen andb]. destruct l as [|o l]; [reflexivity|]. apply IH; [exact F2|discriminate].
Qed.
Lemma bits_highs : forall (l : list obs) rest, Forall (fun o => fst o = true) l -> bits_seen true (l ++ rest) = bits_seen true rest.
Proof.
  induction l as [|[c d] l IH]; intros rest F; [reflexivity|]. inversion F as [|? ? F1 F2]; subst. cbn [fst] in F1. subst c.
  cbn [app bits_seen andb negb]. apply IH, F2.
Qed.

Section P.
Variable mem : Z -> Z.
Variable ab : Z.
Notation step := (ed_step mem ab true).

(** While SCL is low and the slave has settled, SDA changes nothing but the register that holds its last sample. *)
Lemma low_quiet : forall c y, settled mem ab c -> ec_scl_r c = false ->
  step false y c = {| ec_scl_r := false; ec_sda_r := y; ec_cnt := ec_cnt c; ec_din := ec_din c; ec_isr := ec_isr c; ec_off := ec_off c;
    ec_dat := ec_dat c; ec_dbit := ec_dbit c; ec_ddrv := ec_ddrv c; ec_drv := ec_drv c; ec_fsm := ec_fsm c |}.
Proof.
  intros c y S C. unfold settled in S. rewrite C in S.
  exact (f_equal (fun c => {| ec_scl_r := false; ec_sda_r := y; ec_cnt := ec_cnt c; ec_din := ec_din c; ec_isr := ec_isr c; ec_off := ec_off c;
    ec_dat := ec_dat c; ec_dbit := ec_dbit c; ec_ddrv := ec_ddrv c; ec_drv := ec_drv c; ec_fsm := ec_fsm c |}) S).
Qed.

Lemma low_steps : forall d c y, settled mem ab c -> ec_scl_r c = false ->
  let c' := steps d (step false y) c in
  ec_drv c' = ec_drv c /\ sda_drv c' = sda_drv c /\ (1 <= d -> ec_sda_r c' = y).
Proof.
  intros d c y S C. destruct d as [|d]; [cbn; repeat split; lia|]. cbv zeta.
  assert (E : steps (Datatypes.S d) (step false y) c = step false y c).
  { induction d as [|d IH]; [reflexivity|]. rewrite steps_r, IH. rewrite (low_quiet c y S C). set (c1 := {| ec_scl_r := _ |}).
    assert (S1 : settled mem ab c1).
    { unfold settled. change (ec_scl_r c1) with false. change (ec_sda_r c1) with y.
      transitivity (step false y c); [|apply low_quiet; assumption]. unfold c1, ed_step. cbn [ec_scl_r ec_sda_r ec_cnt ec_din ec_isr ec_off ec_dat ec_dbit ec_ddrv ec_drv ec_fsm].
      unfold sda_drv. cbn [ec_fsm ec_ddrv ec_dbit]. reflexivity. }
    exact S1. }
  rewrite E, (low_quiet c y S C). unfold sda_drv. cbn. repeat split.
Qed.

(** While SCL is high, the slave does not change SDA unless it sees a start. *)
Lemma high_step : forall c y, ec_sda_r c = y -> ec_drv c = sda_drv c ->
  let c' := step true y c in ec_drv c' = ec_drv c /\ sda_drv c' = sda_drv c /\ ec_sda_r c' = y.
Proof.
  intros c y Y D. cbv zeta. split; [|split; [|reflexivity]].
  - unfold ed_step. cbn [ec_drv]. symmetry. exact D.
  - unfold sda_drv, ed_step. cbn [ec_fsm ec_ddrv ec_dbit]. rewrite Y.
    replace (true && (negb y && y)) with false by (destruct y; reflexivity). cbn [negb].
    destruct (ec_fsm c); cbn [andb negb zero_drv orb]; try reflexivity;
      repeat match goal with |- context [if ?b then _ else _] => destruct b end; cbn [zero_drv orb]; reflexivity.
Qed.
Lemma high_steps : forall d c y, ec_sda_r c = y -> ec_drv c = sda_drv c ->
  let c' := steps d (step true y) c in ec_drv c' = ec_drv c /\ sda_drv c' = sda_drv c /\ ec_sda_r c' = y.
Proof.
  induction d as [|d IH]; intros c y Y D; [cbn; auto|]. cbn [steps].
  destruct (high_step c y Y D) as (A & B & C). destruct (IH (step true y c) y C ltac:(congruence)) as (A1 & B1 & C1). cbv zeta. repeat split; congruence.
Qed.

Variable i : nat -> ed_in.
Notation run := (edid_run mem ab i).
Notation pins := (fun t => (edi_scl (i t), edi_sda (i t))).
Notation bus := (smp mem ab i).

Lemma div64 : forall t, exists j d, t = 64 * j + d /\ d < 64.
Proof. intros t. exists (t / 64), (t mod 64). split; [apply Nat.div_mod; lia|apply Nat.mod_upper_bound; lia]. Qed.

(** One bit: sample [k0] is the first with SCL high; [t0] to [t1] are the clocks with SCL high. *)
Lemma high_line : forall k0 t0 t1 m, 2 <= k0 ->
  (forall t, 64 * (k0 - 2) + 1 <= t -> edi_hpd (i t) = true) ->
  edi_scl (i (64 * (k0 - 2) + 62)) = false ->
  pins (64 * (k0 - 1) + 62) = (false, m) ->
  64 * (k0 - 1) + 62 < t0 <= 64 * k0 + 62 ->
  (forall t, t0 <= t < t1 -> pins t = (true, m)) ->
  exists v, forall t, t0 <= t < t1 -> ed_line (run t) (i t) = v.
Proof.
  intros k0 t0 t1 m K Hh S2 S1 HT HP.
  destruct k0 as [|[|k]]; try lia. replace (S (S k) - 2) with k in * by lia. replace (S (S k) - 1) with (S k) in * by lia.
  destruct (Cj_S mem ab i k) as [E1 L1]; [intros t Ht; apply Hh; lia|].
  set (c1 := Cj mem ab i (S k)) in *.
  assert (St : settled mem ab c1) by (rewrite E1; apply bstep_settled).
  assert (Sc : ec_scl_r c1 = false) by (rewrite E1, bstep_scl; exact S2).
  pose proof (settled_fields mem ab c1 St) as (_ & D1 & _).
  set (v := ec_drv c1). set (y := m && negb v).
  assert (X1 : bus (S k) = (false, y)).
  { rewrite L1. unfold smp_clk, line. cbv beta in S1. apply pair_equal_spec in S1 as [-> ->]. reflexivity. }
  (* the two low samples *)
  assert (A1 : forall d, d <= 64 -> let c' := es_core (run (64 * S k + 65 + d)) in ec_drv c' = v /\ sda_drv c' = v /\ (1 <= d -> ec_sda_r c' = y)).
  { intros d Hd. rewrite core_steps; [|intros t Ht; apply Hh; lia|exact Hd]. rewrite X1. cbn [fst snd].
    destruct (low_steps d c1 y St Sc) as (P1 & P2 & P3). cbv zeta. split; [exact P1|split; [exact (eq_trans P2 (eq_sym D1))|exact P3]]. }
  assert (HC : forall q, (forall q', q' <= q -> 64 * (S (S k) + q') + 62 < t1) ->
     ec_drv (Cj mem ab i (S (S k) + q)) = v /\ sda_drv (Cj mem ab i (S (S k) + q)) = v /\ ec_sda_r (Cj mem ab i (S (S k) + q)) = y /\ bus (S (S k) + q) = (true, y)).
  { induction q as [|q IH]; intros Hq.
    - rewrite Nat.add_0_r. destruct (A1 64 ltac:(lia)) as (P1 & P2 & P3). replace (64 * S k + 65 + 64) with (64 * S (S k) + 65) in * by lia.
      split; [exact P1|]. split; [exact P2|]. split; [apply P3; lia|].
      destruct (Cj_S mem ab i (S k)) as [_ L2]; [intros t Ht; apply Hh; lia|]. rewrite L2. unfold line, Cj. rewrite P1. unfold smp_clk.
      specialize (Hq 0 ltac:(lia)). rewrite Nat.add_0_r in Hq. specialize (HP (64 * S (S k) + 62) ltac:(lia)). cbv beta in HP. apply pair_equal_spec in HP as [-> ->]. reflexivity.
    - destruct IH as (P1 & P2 & P3 & P4); [intros q' Q; apply Hq; lia|]. set (j := S (S k) + q) in *.
      replace (S (S k) + S q) with (S j) by (unfold j; lia).
      assert (E : Cj mem ab i (S j) = steps 64 (step true y) (Cj mem ab i j)).
      { unfold Cj at 1. replace (64 * S j + 65) with (64 * j + 65 + 64) by lia. rewrite core_steps; [rewrite P4; reflexivity|intros t Ht; apply Hh; unfold j in *; lia|lia]. }
      destruct (high_steps 64 (Cj mem ab i j) y P3 ltac:(congruence)) as (Q1 & Q2 & Q3). rewrite <- E in Q1, Q2, Q3.
      split; [congruence|]. split; [congruence|]. split; [exact Q3|].
      destruct (Cj_S mem ab i j) as [_ L2]; [intros t Ht; apply Hh; unfold j in *; lia|]. rewrite L2. unfold line. rewrite Q1, P1. unfold smp_clk.
      specialize (Hq (S q) ltac:(lia)). replace (S (S k) + S q) with (S j) in Hq by (unfold j; lia).
      specialize (HP (64 * S j + 62) ltac:(unfold j in *; lia)). cbv beta in HP. apply pair_equal_spec in HP as [-> ->]. reflexivity. }
  exists y. intros t Ht. unfold ed_line. pose proof (HP t Ht) as PT. cbv beta in PT. apply pair_equal_spec in PT as [_ ->]. unfold y. f_equal. f_equal.
  destruct (div64 (t - 65)) as (j & d & Ed & Hd).
  assert (Et : t = 64 * j + 65 + d) by lia. rewrite Et.
  assert (CJ : j = k \/ j = S k \/ S (S k) <= j) by lia. destruct CJ as [->|[->|CJ]].
  - rewrite core_steps; [|intros t' Ht'; apply Hh; lia|lia]. rewrite steps_bstep by lia. rewrite <- E1. reflexivity.
  - apply (A1 d). lia.
  - destruct (HC (j - S (S k))) as (P1 & P2 & P3 & P4); [intros q' Q; lia|]. replace (S (S k) + (j - S (S k))) with j in * by lia.
    rewrite core_steps; [|intros t' Ht'; apply Hh; lia|lia]. rewrite P4. cbn [fst snd].
    destruct (high_steps d (Cj mem ab i j) y P3 ltac:(congruence)) as (Q1 & _). rewrite Q1. exact P1.
Qed.

(** The samples of a stretch of levels. *)
Lemma samples_pick : forall l T0 k p, p < 64 -> T0 + p = 64 * k + 62 -> (forall q, q < length l -> pins (T0 + q) = nth q l (true, true)) ->
  map (msmp i) (seq k (length (pick p l))) = pick p l.
Proof.
  induction l as [|o l IH]; intros T0 k p P E H; [reflexivity|].
  assert (H' : forall q, q < length l -> pins (S T0 + q) = nth q l (true, true)).
  { intros q Q. specialize (H (S q) ltac:(cbn [length]; lia)). rewrite Nat.add_succ_r in H. exact H. }
  cbn [pick]. destruct p as [|q].
  - cbn [length seq map]. f_equal.
    + specialize (H 0 ltac:(cbn [length]; lia)). cbn [nth] in H. unfold msmp, smp_clk. rewrite <- E. exact H.
    + apply (IH (S T0) (S k) 63); [lia|lia|exact H'].
  - apply (IH (S T0) k q); [lia|lia|exact H'].
Qed.

Lemma bus_fst : forall a n ws, map (msmp i) (seq a n) = ws -> map (fun k => fst (bus k)) (seq a n) = map fst ws.
Proof. intros a n ws <-. rewrite map_map. apply map_ext. intros k. reflexivity. Qed.

Lemma nth_at : forall (A B C : list obs) q d, q < length B -> nth (length A + q) (A ++ B ++ C) d = nth q B d.
Proof. intros A B C q d Q. rewrite app_nth2 by lia. rewrite app_nth1 by lia. f_equal. lia. Qed.
Lemma nth_rep : forall (o : obs) n q d, q < n -> nth q (repeat o n) d = o.
Proof. intros o. induction n as [|n IH]; intros [|q] d Q; try lia; [reflexivity|]. apply IH. lia. Qed.

Lemma Forall_bus : forall f a n, (forall k, a <= k < a + n -> edi_scl (i (smp_clk k)) = f) -> Forall (fun o : obs => fst o = f) (map bus (seq a n)).
Proof. intros f a n H. apply Forall_map, Forall_forall. intros k K. apply in_seq in K. apply H. exact K. Qed.

Lemma slot_reads : forall T0 k p m xs l h r, 1 <= k -> p < 64 -> T0 + p = 64 * k + 62 ->
  (forall t, 64 * k + 1 <= t -> edi_hpd (i t) = true) ->
  128 <= length xs + l -> 64 <= l -> 64 <= h -> r < h ->
  (forall q, q < length xs + l + h -> pins (T0 + q) = nth q (pin_slot m xs l h) (true, true)) ->
  let w := pick p (pin_slot m xs l h) in
  is_slot m w /\
  forall s rest, bits_seen s (map bus (seq k (length w)) ++ rest) =
    ed_line (run (T0 + (length xs + l + r))) (i (T0 + (length xs + l + r))) :: bits_seen true rest.
Proof.
  intros T0 k p m xs l h r K P E Hh A B C R HP w.
  destruct (pick_slot p m xs l h P A B C) as (ys & a & b & A1 & A2 & A3 & W & W1 & W2). fold w in W.
  assert (LEN : length (pin_slot m xs l h) = length xs + l + h) by (unfold pin_slot; rewrite !app_length, map_length, !repeat_length; lia).
  assert (HH : forall t, T0 + (length xs + l) <= t < T0 + (length xs + l + h) -> pins t = (true, m)).
  { intros t Ht. replace t with (T0 + (t - T0)) by lia. rewrite HP by lia. unfold pin_slot. rewrite app_assoc.
    rewrite app_nth2; rewrite app_length, map_length, repeat_length; [|lia]. apply nth_rep. lia. }
  assert (HM : forall t, T0 + length xs <= t < T0 + (length xs + l) -> pins t = (false, m)).
  { intros t Ht. replace t with (T0 + (t - T0)) by lia. rewrite HP by lia. unfold pin_slot.
    rewrite app_nth2; rewrite map_length; [|lia]. rewrite app_nth1 by (rewrite repeat_length; lia). apply nth_rep. lia. }
  assert (HL : forall t, T0 <= t < T0 + (length xs + l) -> edi_scl (i t) = false).
  { intros t Ht. destruct (Nat.lt_ge_cases t (T0 + length xs)) as [Q|Q].
    - specialize (HP (t - T0) ltac:(lia)). replace (T0 + (t - T0)) with t in HP by lia. unfold pin_slot in HP.
      rewrite app_nth1 in HP by (rewrite map_length; lia).
      rewrite (nth_indep _ _ (false, true)) in HP by (rewrite map_length; lia). change (false, true) with ((fun x : bool => (false, x)) true) in HP. rewrite map_nth in HP.
      apply pair_equal_spec in HP as [HP _]. exact HP.
    - specialize (HM t ltac:(lia)). apply pair_equal_spec in HM as [HM _]. exact HM. }
  set (n0 := length ys + a) in *. set (k0 := k + n0).
  assert (LW : length w = n0 + b) by (rewrite W, !app_length, map_length, !repeat_length; unfold n0; lia).
  split; [rewrite W; apply is_slot_of; assumption|].
  destruct (high_line k0 (T0 + (length xs + l)) (T0 + (length xs + l + h)) m) as [v HV]; try (unfold k0; lia); try exact HH.
  { intros t Ht. apply Hh. unfold k0 in Ht. lia. }
  { apply HL. unfold k0. lia. }
  { apply HM. unfold k0. lia. }
  intros s rest. rewrite LW, seq_app, map_app. destruct b as [|b]; [lia|]. cbn [seq map]. rewrite <- app_assoc.
  rewrite bits_lows.
  - fold k0. cbn [app]. unfold smp at 1. cbn [bits_seen]. rewrite (HV (T0 + (length xs + l + r)) ltac:(lia)).
    unfold smp_clk. rewrite (HV (64 * k0 + 62)) by (unfold k0; lia).
    specialize (HH (64 * k0 + 62) ltac:(unfold k0; lia)). apply pair_equal_spec in HH as [-> _]. cbn [andb negb app]. f_equal.
    apply bits_highs. apply Forall_bus. intros j J. unfold smp_clk.
    assert (X : pins (64 * j + 62) = (true, m)).
    { replace (64 * j + 62) with (T0 + (64 * j + 62 - T0)) by lia. rewrite HP by (unfold k0 in J; lia). unfold pin_slot. rewrite app_assoc.
      rewrite app_nth2; rewrite app_length, map_length, repeat_length; [|unfold k0 in J; lia]. apply nth_rep. unfold k0 in J. lia. }
    apply pair_equal_spec in X as [X _]. exact X.
  - apply Forall_bus. intros j J. apply HL. unfold smp_clk. lia.
  - unfold n0. destruct (length ys + a) eqn:Q; [lia|discriminate].
Qed.

(** A stretch of bits. *)
Lemma slots_read : forall L p0 ms w rs, pin_slots L p0 ms w rs -> 128 <= t_low L -> 64 <= t_setup L -> 64 <= t_high L ->
  forall T0 k p, 1 <= k -> p < 64 -> T0 + p0 + p = 64 * k + 62 ->
  (forall t, 64 * k + 1 <= t -> edi_hpd (i t) = true) ->
  (forall q, q < length w -> pins (T0 + p0 + q) = nth q w (true, true)) ->
  is_slots ms (pick p w) /\
  forall s rest, bits_seen s (map bus (seq k (length (pick p w))) ++ rest) =
    map (fun r => ed_line (run (T0 + r)) (i (T0 + r))) rs ++ bits_seen (match ms with [] => s | _ => true end) rest.
Proof.
  intros L p0 ms w rs H A B C. induction H as [p0|p0 m ms xs l h r w rs H1 H2 H3 H4 H5 IH]; intros T0 k p K P E Hh HP.
  - split; [constructor|]. intros s rest. reflexivity.
  - assert (LEN : length (pin_slot m xs l h) = length xs + l + h) by (unfold pin_slot; rewrite !app_length, map_length, !repeat_length; lia).
    pose proof (pick_bounds (pin_slot m xs l h) p P) as PB. rewrite LEN in PB.
    rewrite app_length in HP. rewrite LEN in HP.
    assert (HS : forall q, q < length xs + l + h -> pins (T0 + p0 + q) = nth q (pin_slot m xs l h) (true, true)).
    { intros q Q. rewrite HP by lia. apply app_nth1. lia. }
    destruct (slot_reads (T0 + p0) k p m xs l h r K P E Hh ltac:(lia) ltac:(lia) ltac:(lia) H4 HS) as [S1 S2].
    set (w1 := pick p (pin_slot m xs l h)) in *. set (p' := p + 64 * length w1 - (length xs + l + h)).
    assert (PW : pick p (pin_slot m xs l h ++ w) = w1 ++ pick p' w) by (rewrite pick_app by exact P; rewrite LEN; reflexivity).
    destruct (IH T0 (k + length w1) p') as [I1 I2]; try (unfold p'; lia).
    { intros t Ht. apply Hh. lia. }
    { intros q Q. replace (T0 + (p0 + (length xs + l + h)) + q) with (T0 + p0 + (length xs + l + h + q)) by lia. rewrite HP by lia.
      rewrite app_nth2 by lia. f_equal. lia. }
    rewrite PW. split; [constructor; assumption|].
    intros s rest. rewrite app_length, seq_app, map_app, <- app_assoc, S2, I2. cbn [map app].
    replace (T0 + p0 + (length xs + l + r)) with (T0 + (p0 + (length xs + l + r))) by lia. f_equal. f_equal. destruct ms; reflexivity.
Qed.
End P.
