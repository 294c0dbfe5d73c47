(** Lemmas about the EDID slave: bit slots, transactions, and the link between
    clocks and samples of the bus. *)
From Coq Require Import ZArith List Bool Lia Arith.
From Verif Require Import Hdl EdidModel EdidSpec EdidSettle.
Import ListNotations.
Open Scope nat_scope.

Section P.
Variable mem : Z -> Z.
Variable ab : Z.
Notation bstep := (bstep mem ab).
Notation mk := (mk mem).
Notation settled := (settled mem ab).

(** The line against the levels given by the master. *)
Definition line (c : ed_core) (m : bool) : bool := m && negb (ec_drv c).

Fixpoint btrace (c : ed_core) (ws : list obs) : list obs :=
  match ws with
  | [] => []
  | (scl, m) :: r => (scl, line c m) :: btrace (bstep c (scl, line c m)) r
  end.

Fixpoint bend (c : ed_core) (ws : list obs) : ed_core :=
  match ws with
  | [] => c
  | (scl, m) :: r => bend (bstep c (scl, line c m)) r
  end.

Definition seen (c : ed_core) (ws : list obs) : list bool := bits_seen (ec_scl_r c) (btrace c ws).

Lemma bend_app : forall a c b, bend c (a ++ b) = bend (bend c a) b.
Proof. induction a as [|[scl m] a IH]; intros c b; [reflexivity|]. cbn [app bend]. apply IH. Qed.

Lemma seen_app : forall a c b, seen c (a ++ b) = seen c a ++ seen (bend c a) b.
Proof.
  unfold seen. induction a as [|[scl m] a IH]; intros c b; [reflexivity|].
  cbn [app btrace bits_seen bend]. rewrite <- app_assoc. f_equal.
  specialize (IH (bstep c (scl, line c m)) b). rewrite bstep_scl in IH. exact IH.
Qed.

(** A run of slots from [c], whatever their timing, reads [outs] and ends in [c']. *)
Definition Tr (c : ed_core) (ms outs : list bool) (c' : ed_core) : Prop :=
  forall ws, is_slots ms ws -> bend c ws = c' /\ seen c ws = outs.

Lemma Tr_nil : forall c, Tr c [] [] c.
Proof. intros c ws H. inversion H; subst. split; reflexivity. Qed.

Lemma is_slots_app : forall a b ws, is_slots (a ++ b) ws ->
  exists w1 w2, ws = w1 ++ w2 /\ is_slots a w1 /\ is_slots b w2.
Proof.
  induction a as [|m a IH]; intros b ws H.
  - exists [], ws. repeat split; [constructor | exact H].
  - inversion H as [|? ? w r Hw Hr E1]; subst. destruct (IH _ _ Hr) as (w1 & w2 & -> & A & B).
    exists (w ++ w1), w2. rewrite app_assoc. repeat split; [constructor; assumption | exact B].
Qed.

Lemma Tr_app : forall c c1 c2 a b oa ob, Tr c a oa c1 -> Tr c1 b ob c2 -> Tr c (a ++ b) (oa ++ ob) c2.
Proof.
  intros c c1 c2 a b oa ob Ha Hb ws H. apply is_slots_app in H. destruct H as (w1 & w2 & -> & A & B).
  destruct (Ha _ A) as [Ea Sa]. destruct (Hb _ B) as [Eb Sb].
  rewrite bend_app, seen_app, Ea, Sa. rewrite Sb. split; [exact Eb | reflexivity].
Qed.

Lemma Tr_cons : forall c c1 c2 m b o ob, Tr c [m] [o] c1 -> Tr c1 b ob c2 -> Tr c (m :: b) (o :: ob) c2.
Proof. intros c c1 c2 m b o ob. apply (Tr_app c c1 c2 [m] b [o] ob). Qed.

Section Slot.
Variables (c c' : ed_core) (L : bool -> ed_core) (dL m b : bool).
Hypothesis H0 : forall x, bstep c (false, x) = L x.
Hypothesis H1 : forall y x, bstep (L y) (false, x) = L x.
Hypothesis HL : forall y, ec_drv (L y) = dL.
Hypothesis Hb : m && negb dL = b.
Hypothesis H2 : bstep (L b) (true, b) = c'.
Hypothesis Hc : line c' m = b.

Lemma lows_end : forall xs s, (forall x, bstep s (false, x) = L x) -> xs <> [] ->
  exists y, bend s (map (fun x => (false, x)) xs) = L y.
Proof.
  induction xs as [|x xs IH]; intros s Hs Hn; [congruence|].
  cbn [map bend]. rewrite Hs. destruct xs as [|x' xs].
  - eexists. reflexivity.
  - apply IH; [apply H1 | discriminate].
Qed.

Lemma lows_seen : forall xs s p, bits_seen p (btrace s (map (fun x => (false, x)) xs)) = [].
Proof.
  induction xs as [|x xs IH]; intros s p; [reflexivity|]. cbn [map btrace bits_seen andb app]. apply IH.
Qed.

Lemma c'_stays : bstep c' (true, b) = c'.
Proof.
  apply settled_bstep.
  - rewrite <- H2. apply bstep_settled.
  - rewrite <- H2. apply bstep_scl.
  - rewrite <- H2. apply bstep_sda.
Qed.

Lemma highs_end : forall h, bend c' (repeat (true, m) h) = c' /\ bits_seen true (btrace c' (repeat (true, m) h)) = [].
Proof.
  induction h as [|h IH]; [split; reflexivity|]. cbn [repeat bend btrace bits_seen andb negb app].
  rewrite Hc, c'_stays. exact IH.
Qed.

Lemma slot_Tr : Tr c [m] [b] c'.
Proof.
  intros ws H. inversion H as [|? ? w r Hw Hr]; subst m0 ms ws. inversion Hr; subst r. rewrite app_nil_r.
  destruct Hw as [x xs h]. unfold slot. cbn [repeat app].
  destruct (lows_end (x :: xs) c H0) as [y Ey]; [discriminate|].
  rewrite bend_app, seen_app, Ey. unfold seen at 1. rewrite lows_seen. cbn [app].
  assert (E1 : bstep (L y) (false, line (L y) m) = L b).
  { rewrite H1. unfold line. rewrite HL, Hb. reflexivity. }
  assert (E2 : line (L b) m = b) by (unfold line; rewrite HL; exact Hb).
  unfold seen. cbn [bend btrace bits_seen]. rewrite E1, E2, H2.
  destruct (highs_end h) as [A B]. rewrite A. split; [reflexivity|].
  cbn [andb negb app]. rewrite B. reflexivity.
Qed.
End Slot.

(** Receiving bits. *)
Lemma rx_slot : forall c f cnt din isr off dd db m,
  f = RCV_ADDRESS \/ f = RCV_OFFSET -> cnt < 7 -> dd && negb db = false ->
  (forall x, bstep c (false, x) = mk f cnt din isr off dd db false x) ->
  Tr c [m] [m] (mk f (S cnt) (shift m din) isr off dd db true m).
Proof.
  intros c f cnt din isr off dd db m Hf C R H0.
  assert (Z0 : zero_drv f = false) by (destruct Hf as [-> | ->]; reflexivity).
  apply slot_Tr with (L := fun x => mk f cnt din isr off dd db false x) (dL := false).
  - exact H0.
  - intros. apply low_rx; [exact Hf | apply Nat.eqb_neq; lia].
  - intros. unfold EdidSettle.mk. cbn [ec_drv]. rewrite Z0, R. reflexivity.
  - apply andb_true_r.
  - apply rise_rx; assumption.
  - unfold line, EdidSettle.mk. cbn [ec_drv]. rewrite Z0, R. apply andb_true_r.
Qed.

Lemma rx_last : forall c f cnt' f' din isr off isr' off' dd db m,
  f = RCV_ADDRESS \/ f = RCV_OFFSET -> dd && negb db = false ->
  (forall x, bstep c (false, x) = mk f 7 din isr off dd db false x) ->
  bstep (mk f 7 din isr off dd db false m) (true, m) = mk f' cnt' (shift m din) isr' off' dd db true m ->
  zero_drv f' = false ->
  Tr c [m] [m] (mk f' cnt' (shift m din) isr' off' dd db true m).
Proof.
  intros c f cnt' f' din isr off isr' off' dd db m Hf R H0 H2 Zf'.
  assert (Z0 : zero_drv f = false) by (destruct Hf as [-> | ->]; reflexivity).
  apply slot_Tr with (L := fun x => mk f 7 din isr off dd db false x) (dL := false).
  - exact H0.
  - intros. apply low_rx; [exact Hf | reflexivity].
  - intros. unfold EdidSettle.mk. cbn [ec_drv]. rewrite Z0, R. reflexivity.
  - apply andb_true_r.
  - exact H2.
  - unfold line, EdidSettle.mk. cbn [ec_drv]. rewrite Zf', R. apply andb_true_r.
Qed.

Definition shifts (bs : list bool) (d : Z) : Z := fold_left (fun d b => shift b d) bs d.

Lemma rx_bits : forall bs c f cnt din isr off dd db,
  f = RCV_ADDRESS \/ f = RCV_OFFSET -> cnt + length bs <= 7 -> dd && negb db = false -> bs <> [] ->
  (forall x, bstep c (false, x) = mk f cnt din isr off dd db false x) ->
  Tr c bs bs (mk f (cnt + length bs) (shifts bs din) isr off dd db true (last bs false)).
Proof.
  induction bs as [|m bs IH]; intros c f cnt din isr off dd db Hf C R Hn H0; [congruence|].
  cbn [length] in C. destruct bs as [|m' bs].
  - cbn [length shifts fold_left last]. replace (cnt + 1) with (S cnt) by lia. unfold shifts. cbn [fold_left].
    apply rx_slot; try assumption; lia.
  - apply Tr_cons with (c1 := mk f (S cnt) (shift m din) isr off dd db true m).
    + apply rx_slot; try assumption; lia.
    + replace (cnt + length (m :: m' :: bs)) with (S cnt + length (m' :: bs)) by (cbn [length]; lia).
      change (shifts (m :: m' :: bs) din) with (shifts (m' :: bs) (shift m din)).
      change (last (m :: m' :: bs) false) with (last (m' :: bs) false).
      apply IH; try assumption; [cbn [length] in *; lia | discriminate |].
      intros x. apply low_rx; [exact Hf | apply Nat.eqb_neq; lia].
Qed.

(** Value of eight bits shifted in. *)
Lemma shift_range : forall b d, (0 <= shift b d < 256)%Z.
Proof.
  intros b d. unfold shift, slice, b2z. change (2 ^ 0)%Z with 1%Z. change (2 ^ 7)%Z with 128%Z.
  pose proof (Z.mod_pos_bound (d / 1) 128 ltac:(lia)). destruct b; lia.
Qed.

Lemma shift_mod : forall b d, shift b d = ((2 * d + b2z b) mod 256)%Z.
Proof.
  intros b d. unfold shift, slice. change (2 ^ 0)%Z with 1%Z. change (2 ^ 7)%Z with 128%Z.
  rewrite Z.div_1_r. pose proof (Z.mod_pos_bound d 128 ltac:(lia)).
  rewrite (Z.div_mod d 128) at 2 by lia.
  replace (2 * (128 * (d / 128) + d mod 128) + b2z b)%Z with (2 * (d mod 128) + b2z b + (d / 128) * 256)%Z by lia.
  rewrite Z.mod_add by lia. rewrite (Z.mod_small (2 * (d mod 128) + b2z b)); [lia|]. destruct b; unfold b2z; lia.
Qed.

Lemma byte_bits_8 : forall x, byte_bits x =
  [Z.testbit x 7; Z.testbit x 6; Z.testbit x 5; Z.testbit x 4; Z.testbit x 3; Z.testbit x 2; Z.testbit x 1; Z.testbit x 0].
Proof. reflexivity. Qed.

Lemma byte_shifts : forall x d, (0 <= x < 256)%Z -> shifts (byte_bits x) d = x.
Proof.
  intros x d Hx.
  assert (M : forall bs a, shifts bs a = shifts bs (a mod 256)%Z \/ bs = []).
  { intros [|b bs] a; [right; reflexivity|]. left. unfold shifts. cbn [fold_left]. f_equal.
    rewrite !shift_mod. rewrite <- (Zplus_mod_idemp_l (2 * a)), <- (Zplus_mod_idemp_l (2 * (a mod 256))).
    f_equal. f_equal. rewrite Zmult_mod_idemp_r. reflexivity. }
  assert (K : forall bs a, (0 <= a < 256)%Z -> shifts bs a =
     ((fold_left (fun d b => 2 * d + b2z b) bs a) mod 256)%Z).
  { induction bs as [|b bs IH] using rev_ind; intros a Ha.
    - unfold shifts. cbn. rewrite Z.mod_small; lia.
    - unfold shifts in *. rewrite !fold_left_app. cbn [fold_left]. rewrite IH by exact Ha. rewrite shift_mod.
      set (F := fold_left _ bs a). rewrite <- (Zplus_mod_idemp_l (2 * F)), <- (Zplus_mod_idemp_l (2 * (F mod 256))).
      f_equal. f_equal. rewrite Zmult_mod_idemp_r. reflexivity. }
  destruct (M (byte_bits x) d) as [E | E]; [rewrite E | discriminate E].
  rewrite K by (apply Z.mod_pos_bound; lia).
  rewrite byte_bits_8. cbn [fold_left].
  assert (B : (x = 128 * b2z (Z.testbit x 7) + 64 * b2z (Z.testbit x 6) + 32 * b2z (Z.testbit x 5)
              + 16 * b2z (Z.testbit x 4) + 8 * b2z (Z.testbit x 3) + 4 * b2z (Z.testbit x 2)
              + 2 * b2z (Z.testbit x 1) + b2z (Z.testbit x 0))%Z).
  { apply Z.eqb_eq. refine (forallb_zrange 0 256 (fun x => Z.eqb x _) _ x _); [vm_compute; reflexivity | lia]. }
  set (a := (d mod 256)%Z). rewrite B at 9.
  match goal with |- (?e mod 256 = ?r)%Z => replace e with (r + a * 256)%Z by lia end.
  rewrite Z.mod_add by lia. rewrite <- B. apply Z.mod_small, Hx.
Qed.

Lemma rx_byte : forall c f f' din isr off isr' off' dd db x,
  f = RCV_ADDRESS \/ f = RCV_OFFSET -> dd && negb db = false -> (0 <= x < 256)%Z ->
  zero_drv f' = false ->
  (forall y, bstep c (false, y) = mk f 0 din isr off dd db false y) ->
  (forall d, shift (Z.testbit x 0) d = x ->
     bstep (mk f 7 d isr off dd db false (Z.testbit x 0)) (true, Z.testbit x 0) =
     mk f' 8 x isr' off' dd db true (Z.testbit x 0)) ->
  Tr c (byte_bits x) (byte_bits x) (mk f' 8 x isr' off' dd db true (Z.testbit x 0)).
Proof.
  intros c f f' din isr off isr' off' dd db x Hf R Hx Zf' H0 HL.
  set (b7 := map (fun k => Z.testbit x (7 - Z.of_nat k)) (seq 0 7)).
  assert (E : byte_bits x = b7 ++ [Z.testbit x 0]) by reflexivity.
  pose proof (byte_shifts x din Hx) as Sx. rewrite E in Sx. unfold shifts in Sx. rewrite fold_left_app in Sx.
  cbn [fold_left] in Sx. fold (shifts b7 din) in Sx.
  rewrite E. apply Tr_app with (c1 := mk f (0 + length b7) (shifts b7 din) isr off dd db true (last b7 false)).
  - apply rx_bits; try assumption; [cbn; lia | discriminate].
  - change (0 + length b7) with 7.
    pose proof (HL _ Sx) as HL'.
    pose proof (rx_last (mk f 7 (shifts b7 din) isr off dd db true (last b7 false)) f 8 f' (shifts b7 din) isr off isr' off' dd db
      (Z.testbit x 0) Hf R) as K.
    rewrite Sx in K. apply K; [|exact HL' | exact Zf'].
    intros y. apply low_rx; [exact Hf | reflexivity].
Qed.

Lemma ack_slot : forall f0 f1 f2 din isr off dd db y,
  (f0 = ACK_ADDRESS0 /\ f1 = ACK_ADDRESS1 /\ f2 = ACK_ADDRESS2) \/
  (f0 = ACK_OFFSET0 /\ f1 = ACK_OFFSET1 /\ f2 = ACK_OFFSET2) ->
  Tr (mk f0 8 din isr off dd db true y) [true] [false] (mk f2 0 din isr off dd db true false).
Proof.
  intros f0 f1 f2 din isr off dd db y Hf.
  apply slot_Tr with (L := fun x => mk f1 8 din isr off dd db false x) (dL := true).
  - intros x. apply ack_low. tauto.
  - intros y' x. apply ack_low. tauto.
  - intros y'. destruct Hf as [(-> & -> & ->) | (-> & -> & ->)]; reflexivity.
  - reflexivity.
  - apply ack_rise. tauto.
  - destruct Hf as [(-> & -> & ->) | (-> & -> & ->)]; reflexivity.
Qed.

Lemma read_slot : forall c cnt din isr off,
  cnt < 8 ->
  (forall x, bstep c (false, x) = mk READ cnt din isr off true (Z.testbit (mem off) (7 - Z.of_nat cnt)) false x) ->
  Tr c [true] [Z.testbit (mem off) (7 - Z.of_nat cnt)]
     (mk READ (S cnt) (shift (Z.testbit (mem off) (7 - Z.of_nat cnt)) din) isr off true
         (Z.testbit (mem off) (7 - Z.of_nat cnt)) true (Z.testbit (mem off) (7 - Z.of_nat cnt))).
Proof.
  intros c cnt din isr off C H0. set (b := Z.testbit (mem off) (7 - Z.of_nat cnt)) in *.
  apply slot_Tr with (L := fun x => mk READ cnt din isr off true b false x) (dL := negb b).
  - exact H0.
  - intros y x. rewrite read_low by exact C. reflexivity.
  - reflexivity.
  - apply negb_involutive.
  - apply read_rise, C.
  - unfold line, EdidSettle.mk. cbn [ec_drv zero_drv orb andb]. apply negb_involutive.
Qed.

Lemma read_bits : forall k c cnt din isr off, cnt + S k = 8 ->
  (forall x, bstep c (false, x) = mk READ cnt din isr off true (Z.testbit (mem off) (7 - Z.of_nat cnt)) false x) ->
  exists din' db y,
    Tr c (repeat true (S k)) (map (fun j => Z.testbit (mem off) (7 - Z.of_nat j)) (seq cnt (S k)))
       (mk READ 8 din' isr off true db true y).
Proof.
  induction k as [|k IH]; intros c cnt din isr off C H0.
  - assert (cnt = 7) by lia. subst cnt. eexists _, _, _. apply (read_slot c 7 din isr off); [lia | exact H0].
  - pose proof (read_slot c cnt din isr off ltac:(lia) H0) as T.
    destruct (IH _ (S cnt) _ isr off ltac:(lia)
      (fun x => read_low mem ab (S cnt) (shift (Z.testbit (mem off) (7 - Z.of_nat cnt)) din) isr off true
         (Z.testbit (mem off) (7 - Z.of_nat cnt)) true (Z.testbit (mem off) (7 - Z.of_nat cnt)) x ltac:(lia)))
      as (din' & db & y & T').
    exists din', db, y.
    change (repeat true (S (S k))) with (true :: repeat true (S k)).
    change (seq cnt (S (S k))) with (cnt :: seq (S cnt) (S k)). cbn [map].
    eapply Tr_cons; [exact T | exact T'].
Qed.

Lemma readack_slot : forall din isr off dd db y m,
  Tr (mk READ 8 din isr off dd db true y) [m] [m]
     (mk (if m then WAIT_START else READ) 0 din isr (trunc ab (off + 1)) false db true m).
Proof.
  intros din isr off dd db y m.
  apply slot_Tr with (L := fun x => mk ACK_READ 8 din isr off false db false x) (dL := false).
  - intros x. apply readack_low. tauto.
  - intros y' x. apply readack_low. tauto.
  - reflexivity.
  - apply andb_true_r.
  - apply readack_rise.
  - unfold line, EdidSettle.mk. cbn [ec_drv]. destruct m; reflexivity.
Qed.

Lemma trunc_succ : forall a, trunc ab (trunc ab a + 1) = trunc ab (a + 1).
Proof. intros a. unfold trunc. apply Zplus_mod_idemp_l. Qed.

Lemma read_bytes : forall n r k c din isr off0, k + r = n ->
  (r <> 0 -> forall x, bstep c (false, x) = mk READ 0 din isr (trunc ab (off0 + Z.of_nat k)) true
     (Z.testbit (mem (trunc ab (off0 + Z.of_nat k))) 7) false x) ->
  exists c', Tr c (concat (map (fun k => repeat true 8 ++ [Nat.eqb (S k) n]) (seq k r)))
     (concat (map (fun k => byte_bits (mem (trunc ab (off0 + Z.of_nat k))) ++ [Nat.eqb (S k) n]) (seq k r))) c'.
Proof.
  intros n. induction r as [|r IH]; intros k c din isr off0 E H0.
  - exists c. apply Tr_nil.
  - set (off := trunc ab (off0 + Z.of_nat k)) in *.
    destruct (read_bits 7 c 0 din isr off eq_refl (H0 ltac:(discriminate))) as (din' & db & y & T).
    pose proof (readack_slot din' isr off true db y (Nat.eqb (S k) n)) as TA.
    assert (Eo : trunc ab (off + 1) = trunc ab (off0 + Z.of_nat (S k))).
    { unfold off. rewrite trunc_succ. f_equal. lia. }
    rewrite Eo in TA.
    match type of TA with Tr _ _ _ ?c1 => specialize (IH (S k) c1 din' isr off0 ltac:(lia)) end.
    destruct IH as (c' & T').
    { intros Hr x. assert (Nat.eqb (S k) n = false) as -> by (apply Nat.eqb_neq; lia).
      rewrite read_low by lia. reflexivity. }
    exists c'. cbn [seq map concat]. eapply Tr_app; [eapply Tr_app; [exact T | exact TA] | exact T'].
Qed.

(** Start condition. *)
Lemma start_run : forall c a, settled c -> ec_scl_r c = true -> ec_sda_r c = true -> ec_drv c = false ->
  bend c (start_cond a) = mk RCV_ADDRESS 0 (ec_din c) (ec_isr c) (ec_off c) (ec_ddrv c) (ec_dbit c) true false /\
  seen c (start_cond a) = [] /\ ec_ddrv c && negb (ec_dbit c) = false.
Proof.
  intros c a S A B D. destruct (start_seen mem ab c S A B D) as [R E].
  set (s1 := mk RCV_ADDRESS 0 (ec_din c) (ec_isr c) (ec_off c) (ec_ddrv c) (ec_dbit c) true false) in *.
  assert (S1 : settled s1) by (rewrite <- E; apply bstep_settled).
  assert (K : forall h, bend s1 (repeat (true, false) h) = s1 /\ seen s1 (repeat (true, false) h) = []).
  { induction h as [|h IH]; [split; reflexivity|].
    assert (E1 : bstep s1 (true, line s1 false) = s1) by (apply settled_bstep; [exact S1 | reflexivity | reflexivity]).
    unfold seen in *. cbn [repeat bend btrace bits_seen]. rewrite E1. exact IH. }
  unfold start_cond, seen. cbn [repeat bend btrace bits_seen]. rewrite A. cbn [andb negb app line].
  unfold line. cbn [andb]. rewrite E. destruct (K a) as [K1 K2].
  split; [exact K1 | split; [exact K2 | exact R]].
Qed.

(** Address byte then acknowledge. *)
Lemma address_Tr : forall c din isr off dd db x, dd && negb db = false -> (0 <= x < 256)%Z ->
  slice 1 7 x = 80%Z ->
  (forall y, bstep c (false, y) = mk RCV_ADDRESS 0 din isr off dd db false y) ->
  Tr c (byte_bits x ++ [true]) (byte_bits x ++ [false])
     (mk ACK_ADDRESS2 0 x (Z.testbit x 0) off dd db true false).
Proof.
  intros c din isr off dd db x R Hx A H0. eapply Tr_app.
  - apply rx_byte with (f := RCV_ADDRESS) (f' := ACK_ADDRESS0) (din := din) (isr := isr) (off := off)
      (isr' := Z.testbit x 0) (off' := off) (dd := dd) (db := db); try assumption; [tauto | reflexivity |].
    intros d Ed. rewrite rise_address by (rewrite Ed; exact A). rewrite Ed. reflexivity.
  - apply ack_slot with (f1 := ACK_ADDRESS1). tauto.
Qed.

Lemma random_read_run : forall c offset n ws, (0 <= offset < 256)%Z ->
  settled c -> ec_scl_r c = true -> ec_sda_r c = true -> ec_drv c = false ->
  is_random_read offset n ws ->
  seen c ws = expected_read (fun k => mem (trunc ab (offset + Z.of_nat k))) offset n.
Proof.
  intros c offset n ws Ho S A B D H. destruct H as [a b w1 w2 w3 H1 H2 H3].
  destruct (start_run c a S A B D) as (E0 & S0 & R0).
  rewrite seen_app, S0, E0. cbn [app].
  (* address and offset *)
  set (c1 := mk RCV_ADDRESS 0 (ec_din c) (ec_isr c) (ec_off c) (ec_ddrv c) (ec_dbit c) true false).
  set (dd := ec_ddrv c) in *. set (db := ec_dbit c) in *.
  assert (T1 : Tr c1 (byte_bits 160 ++ [true]) (byte_bits 160 ++ [false])
                 (mk ACK_ADDRESS2 0 160 false (ec_off c) dd db true false)).
  { apply (address_Tr c1 (ec_din c) (ec_isr c) (ec_off c) dd db 160); [exact R0 | lia | reflexivity |].
    intros y. apply low_rx; [tauto | reflexivity]. }
  assert (T2 : Tr (mk ACK_ADDRESS2 0 160 false (ec_off c) dd db true false)
                 (byte_bits offset ++ [true]) (byte_bits offset ++ [false])
                 (mk ACK_OFFSET2 0 offset false (trunc ab offset) dd db true false)).
  { eapply Tr_app.
    - apply rx_byte with (f := RCV_OFFSET) (f' := ACK_OFFSET0) (din := 160%Z) (isr := false) (off := ec_off c)
        (isr' := false) (off' := trunc ab offset) (dd := dd) (db := db); try assumption; [tauto | reflexivity | |].
      + intros y. apply ack_write.
      + intros d Ed. rewrite rise_offset, Ed. reflexivity.
    - apply ack_slot with (f1 := ACK_OFFSET1). tauto. }
  assert (T3 : Tr (mk ACK_OFFSET2 0 offset false (trunc ab offset) dd db true false) [true] [true]
                 (mk RCV_ADDRESS 1 (shift true offset) false (trunc ab offset) dd db true true)).
  { apply rx_slot; [tauto | lia | exact R0 |]. intros x. apply ack_offset. }
  assert (T123 : Tr c1 (byte_bits 160 ++ [true] ++ byte_bits offset ++ [true] ++ [true])
                    (byte_bits 160 ++ [false] ++ byte_bits offset ++ [false] ++ [true])
                    (mk RCV_ADDRESS 1 (shift true offset) false (trunc ab offset) dd db true true)).
  { rewrite !app_assoc. rewrite <- (app_assoc _ (byte_bits offset) [true]). rewrite <- (app_assoc _ (byte_bits offset) [false]).
    eapply Tr_app; [|exact T3]. eapply Tr_app; [exact T1 | exact T2]. }
  set (c3 := mk RCV_ADDRESS 1 (shift true offset) false (trunc ab offset) dd db true true) in *.
  destruct (T123 _ H1) as [E1 S1]. rewrite seen_app, S1, E1.
  (* repeated start *)
  assert (St3 : settled c3).
  { rewrite <- E1. destruct (T123 w1 H1) as [_ _].
    pose proof (rise_rx mem ab RCV_ADDRESS 0 offset false (trunc ab offset) dd db true (or_introl eq_refl) ltac:(lia)) as K.
    rewrite E1. unfold c3. rewrite <- K. apply bstep_settled. }
  destruct (start_run c3 b St3 eq_refl eq_refl) as (E2 & S2 & _).
  { unfold c3, EdidSettle.mk. cbn [ec_drv zero_drv orb]. exact R0. }
  rewrite seen_app, S2, E2. cbn [app]. unfold c3, EdidSettle.mk.
  cbn [ec_din ec_isr ec_off ec_ddrv ec_dbit].
  match goal with |- context [seen ?x (w2 ++ w3)] =>
    change x with (mk RCV_ADDRESS 0 (shift true offset) false (trunc ab offset) dd db true false) end.
  (* address, read *)
  assert (T4 : Tr (mk RCV_ADDRESS 0 (shift true offset) false (trunc ab offset) dd db true false)
                 (byte_bits 161 ++ [true]) (byte_bits 161 ++ [false])
                 (mk ACK_ADDRESS2 0 161 true (trunc ab offset) dd db true false)).
  { apply (address_Tr _ (shift true offset) false (trunc ab offset) dd db 161); [exact R0 | lia | reflexivity |].
    intros y. apply low_rx; [tauto | reflexivity]. }
  destruct (T4 _ H2) as [E4 S4]. rewrite seen_app, S4, E4.
  destruct (read_bytes n n 0 (mk ACK_ADDRESS2 0 161 true (trunc ab offset) dd db true false) 161 true offset eq_refl) as (c' & T5).
  { intros _ x. rewrite Z.add_0_r. apply ack_read. }
  destruct (T5 _ H3) as [_ S5]. rewrite S5.
  unfold expected_read. rewrite <- !app_assoc. reflexivity.
Qed.
End P.
