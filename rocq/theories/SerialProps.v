(** C58-C60 and C68: clock generator programming, ready flags, phase accumulators, gears. *)
From Coq Require Import ZArith List Bool Lia Arith.
From Verif Require Import Hdl SerialModel.
Import ListNotations.
Open Scope Z_scope.

(** * C58: clock generator commands *)

(** The most recent clock before [n] in which [p] holds. *)
Fixpoint last_before (p : nat -> bool) (n : nat) : option nat :=
  match n with
  | O => None
  | S k => if p k then Some k else last_before p k
  end.

Lemma last_before_lt : forall p n w, last_before p n = Some w -> (w < n)%nat /\ p w = true.
Proof.
  induction n as [|n IH]; intros w H; [discriminate H|]. cbn [last_before] in H. destruct (p n) eqn:E.
  - injection H as <-. split; [lia|exact E].
  - destruct (IH w H). split; [lia|assumption].
Qed.

Section Command.
Variable i : nat -> cm_in.
Let st := cm_run i.
Let last := last_before (fun k => cm_send (i k)).

Lemma cm_S : forall n, st (S n) = cm_step (st n) (i n).
Proof. reflexivity. Qed.

Hypothesis data10 : forall n, 0 <= cm_data (i n) < 1024.

Lemma cm_inv : forall n,
  match last n with
  | None => cm_rem (st n) = 0 /\ cm_busyc (st n) = 0
  | Some w => let a := Z.of_nat (n - 1 - w) in
      cm_rem (st n) = Z.max 0 (10 - a) /\ cm_busyc (st n) = Z.max 0 (13 - a) /\
      cm_sr (st n) = cm_data (i w) / 2 ^ (Z.min 10 a)
  end.
Proof.
  induction n as [|n IH]; [split; reflexivity|]. rewrite cm_S. unfold last in *. cbn [last_before]. destruct (cm_send (i n)) eqn:E.
  - replace (S n - 1 - n)%nat with 0%nat by lia. cbv zeta. cbn [cm_step cm_rem cm_busyc cm_sr]. rewrite E.
    split; [reflexivity|]. split; [reflexivity|]. cbn [Z.of_nat]. change (Z.min 10 0) with 0. rewrite Z.pow_0_r, Z.div_1_r.
    apply trunc_id. apply data10.
  - destruct (last_before (fun k => cm_send (i k)) n) as [w|] eqn:L.
    + destruct (last_before_lt _ _ _ L) as [Lt _]. cbv zeta in *. destruct IH as (IR & IB & IS).
      replace (Z.of_nat (S n - 1 - w)) with (Z.of_nat (n - 1 - w) + 1) by lia.
      set (a := Z.of_nat (n - 1 - w)) in *. assert (A : 0 <= a) by (subst a; lia). clearbody a.
      unfold cm_step, cm_transmitting, cm_busy. cbn [cm_rem cm_busyc cm_sr]. rewrite E, IR, IB, IS.
      split; [|split].
      * destruct (Z.eqb_spec (Z.max 0 (10 - a)) 0); cbn [negb]; [lia|]. rewrite trunc_id; [lia|change (2 ^ 4) with 16; lia].
      * destruct (Z.eqb_spec (Z.max 0 (13 - a)) 0); cbn [negb]; [lia|]. rewrite trunc_id; [lia|change (2 ^ 4) with 16; lia].
      * destruct (Z.eqb_spec (Z.max 0 (10 - a)) 0); cbn [negb].
        -- replace (Z.min 10 (a + 1)) with (Z.min 10 a) by lia. reflexivity.
        -- replace (Z.min 10 (a + 1)) with (a + 1) by lia. replace (Z.min 10 a) with a by lia.
           unfold slice. rewrite Z.div_div by (try apply Z.pow_nonzero; try apply Z.pow_pos_nonneg; lia).
           rewrite <- Z.pow_add_r by lia. apply Z.mod_small.
           pose proof (data10 w) as D. split; [apply Z.div_pos; [lia|apply Z.pow_pos_nonneg; lia]|].
           apply Z.div_lt_upper_bound; [apply Z.pow_pos_nonneg; lia|].
           rewrite Z.pow_add_r by lia. assert (1 <= 2 ^ a) by (apply (Z.pow_le_mono_r 2 0 a); lia). change (2 ^ 1) with 2. change (2 ^ 9) with 512. nia.
    + destruct IH as [IR IB]. unfold cm_step, cm_transmitting, cm_busy. cbn [cm_rem cm_busyc cm_sr]. rewrite E, IR, IB. split; reflexivity.
Qed.
End Command.

(** The three observable signals, as a function of when and what software last wrote: bit j of the
    command is on the data pin j+1 clocks after the write. *)
Theorem C58_command : forall i, (forall n, 0 <= cm_data (i n) < 1024) -> forall n,
  let s := cm_run i n in
  let age := match last_before (fun k => cm_send (i k)) n with
             | Some w => Some (w, (n - (w + 1))%nat)
             | None => None
             end in
  cm_progdata s = match age with Some (w, j) => (j <? 10)%nat && Z.testbit (cm_data (i w)) (Z.of_nat j) | None => false end /\
  cm_progen s (i n) = match age with Some (w, j) => (j <? 10)%nat | None => false end || cm_go (i n) /\
  cm_busy s = match age with Some (w, j) => (j <? 13)%nat | None => false end.
Proof.
  intros i D n s age. pose proof (cm_inv i D n) as I. fold s in I. unfold age. clear age.
  unfold cm_progdata, cm_progen, cm_busy, cm_transmitting.
  destruct (last_before (fun k => cm_send (i k)) n) as [w|] eqn:L.
  - cbv zeta in I. replace (n - 1 - w)%nat with (n - (w + 1))%nat in I by lia. destruct I as (-> & -> & ->).
    set (j := (n - (w + 1))%nat).
    split; [|split].
    + destruct (Nat.ltb_spec j 10).
      * replace (Z.max 0 (10 - Z.of_nat j) =? 0) with false by (symmetry; apply Z.eqb_neq; lia). cbn [negb andb].
        replace (Z.min 10 (Z.of_nat j)) with (Z.of_nat j) by lia. rewrite Z.div_pow2_bits by lia. rewrite Z.add_0_l. reflexivity.
      * replace (Z.max 0 (10 - Z.of_nat j) =? 0) with true by (symmetry; apply Z.eqb_eq; lia). reflexivity.
    + f_equal. destruct (Nat.ltb_spec j 10), (Z.eqb_spec (Z.max 0 (10 - Z.of_nat j)) 0); try lia; reflexivity.
    + destruct (Nat.ltb_spec j 13), (Z.eqb_spec (Z.max 0 (13 - Z.of_nat j)) 0); try lia; reflexivity.
  - destruct I as [-> ->]. cbn. auto.
Qed.

(** In words: after a write in clock [w] with no other write in the thirteen clocks that follow. *)
Theorem C58_serialised : forall i, (forall n, 0 <= cm_data (i n) < 1024) -> forall w,
  cm_send (i w) = true -> (forall k, (w < k <= w + 13)%nat -> cm_send (i k) = false) ->
  map (fun j => cm_progdata (cm_run i (w + 1 + j))) (seq 0 10) = to_bits 10 (cm_data (i w)) /\
  (forall k, (w < k <= w + 10)%nat -> cm_progen (cm_run i k) (i k) = true) /\
  (forall k, (w + 10 < k <= w + 14)%nat -> cm_progen (cm_run i k) (i k) = cm_go (i k) /\ cm_progdata (cm_run i k) = false) /\
  (forall k, (w < k <= w + 13)%nat -> cm_busy (cm_run i k) = true) /\ cm_busy (cm_run i (w + 14)) = false.
Proof.
  intros i D w Hw Q.
  assert (L : forall k, (k <= 13)%nat -> last_before (fun k => cm_send (i k)) (w + 1 + k) = Some w).
  { induction k as [|k IH]; intros Hk.
    - rewrite Nat.add_0_r, Nat.add_1_r. cbn [last_before]. rewrite Hw. reflexivity.
    - rewrite Nat.add_succ_r. cbn [last_before]. rewrite Q by lia. apply IH. lia. }
  split; [|split; [|split; [|split]]].
  - unfold to_bits. apply map_ext_in. intros j Hj. apply in_seq in Hj. destruct (C58_command i D (w + 1 + j)) as [-> _].
    rewrite L by lia. replace (w + 1 + j - (w + 1))%nat with j by lia. rewrite (proj2 (Nat.ltb_lt j 10)) by lia. reflexivity.
  - intros k Hk. destruct (C58_command i D k) as (_ & -> & _). replace k with (w + 1 + (k - (w + 1)))%nat by lia. rewrite L by lia.
    rewrite (proj2 (Nat.ltb_lt _ 10)) by lia. reflexivity.
  - intros k Hk. destruct (C58_command i D k) as (-> & -> & _). replace (last_before (fun k => cm_send (i k)) k) with (Some w).
    + rewrite (proj2 (Nat.ltb_ge _ 10)) by lia. split; reflexivity.
    + symmetry. replace k with (w + 1 + (k - (w + 1)))%nat by lia. apply L. lia.
  - intros k Hk. destruct (C58_command i D k) as (_ & _ & ->). replace k with (w + 1 + (k - (w + 1)))%nat by lia. rewrite L by lia.
    rewrite (proj2 (Nat.ltb_lt _ 13)) by lia. reflexivity.
  - destruct (C58_command i D (w + 14)) as (_ & _ & ->). replace (w + 14)%nat with (w + 1 + 13)%nat by lia. rewrite L by lia.
    rewrite (proj2 (Nat.ltb_ge _ 13)) by lia. reflexivity.
Qed.

Definition cmd_ex (n : nat) : cm_in := {| cm_send := (n =? 2)%nat; cm_go := (n =? 20)%nat; cm_data := 0x2C5 |}.
Example cmd_ex_bits : map (fun n => cm_progdata (cm_run cmd_ex n)) (seq 2 12) =
  [false; true; false; true; false; false; false; true; true; false; true; false] /\
  map (fun n => cm_progen (cm_run cmd_ex n) (cmd_ex n)) (seq 18 4) = [false; false; true; false].
Proof. vm_compute. split; reflexivity. Qed.

(** * C68: the ready flag *)

(** After a request the flag is low until the port answers, and stays high until the next one. *)
Theorem C68_drp_ready : forall i n,
  drp_run i n = true <->
  exists k, (k < n)%nat /\ drp_drdy (i k) = true /\
    forall j, (k <= j < n)%nat -> drp_read (i j) = false /\ drp_write (i j) = false.
Proof.
  intros i. induction n as [|n IH].
  - split; [discriminate|]. intros (k & H & _). lia.
  - change (drp_run i (S n)) with (drp_step (drp_run i n) (i n)). unfold drp_step.
    destruct (drp_read (i n) || drp_write (i n)) eqn:R.
    + split; [discriminate|]. intros (k & H & _ & J). destruct (J n ltac:(lia)) as [A B]. rewrite A, B in R. discriminate R.
    + apply orb_false_iff in R as [RA RB]. destruct (drp_drdy (i n)) eqn:D.
      * split; [intros _|reflexivity]. exists n. split; [lia|]. split; [exact D|]. intros j Hj. replace j with n by lia. auto.
      * rewrite IH. split.
        -- intros (k & H & Dk & J). exists k. split; [lia|]. split; [exact Dk|]. intros j Hj.
           destruct (Nat.eq_dec j n) as [-> | N]; [auto|apply J; lia].
        -- intros (k & H & Dk & J). destruct (Nat.eq_dec k n) as [-> | N]; [rewrite D in Dk; discriminate Dk|].
           exists k. split; [lia|]. split; [exact Dk|]. intros j Hj. apply J. lia.
Qed.

Definition drp_ex (n : nat) : drp_in := {| drp_read := (n =? 1)%nat; drp_write := (n =? 7)%nat; drp_drdy := (n =? 4)%nat |}.
Example drp_ex_flag : map (drp_run drp_ex) (seq 0 10) =
  [false; false; false; false; false; true; true; true; false; false].
Proof. reflexivity. Qed.

(** * C59: phase accumulators *)

(** Sum of the errors of the clocks [a, ..., a+n-1]. *)
Fixpoint error_sum (e : nat -> Z) (a n : nat) : Z :=
  match n with O => 0 | S m => error_sum e a m + e (a + m)%nat end.

(** What a saturating accumulator of [w] bits with value [l n] in clock [n], error [e n] and reset
    request [r n] must do. *)
Record saturating (w : Z) (e : nat -> Z) (r : nat -> bool) (l : nat -> Z) : Prop := {
  sat_range : forall n, 0 <= l n <= 2 ^ w - 1;
  sat_start : l 0%nat = 2 ^ (w - 1);
  sat_reset : forall n, r n = true -> l (S n) = 2 ^ (w - 1);
  sat_no_wrap : forall n, r n = false -> l (S n) = l n \/ l (S n) = l n + e n;
  sat_frozen : forall n k, (l n = 0 \/ l n = 2 ^ w - 1) -> (forall j, (n <= j < n + k)%nat -> r j = false) -> l (n + k)%nat = l n;
  sat_sum : forall a k, l a = 2 ^ (w - 1) -> (forall j, (a <= j < a + k)%nat -> r j = false) ->
    (forall j, (j < k)%nat -> 0 < 2 ^ (w - 1) + error_sum e a j < 2 ^ w - 1) ->
    l (a + k)%nat = 2 ^ (w - 1) + error_sum e a k
}.

Lemma saturating_intro : forall (w : Z) (e : nat -> Z) (r : nat -> bool) (l : nat -> Z), 1 <= w -> (forall n, -1 <= e n <= 1) ->
  l 0%nat = 2 ^ (w - 1) ->
  (forall n, l (S n) = if r n then 2 ^ (w - 1)
    else if (l n =? 2 ^ w - 1) || (l n =? 0) then l n else trunc w (l n + e n)) ->
  saturating w e r l.
Proof.
  intros w e r l Hw E0 L0 LS.
  assert (P : 1 <= 2 ^ (w - 1)) by (apply (Z.pow_le_mono_r 2 0); lia).
  assert (P2 : 2 ^ w = 2 * 2 ^ (w - 1)) by (rewrite <- Z.pow_succ_r by lia; f_equal; lia).
  assert (RG : forall n, 0 <= l n <= 2 ^ w - 1).
  { induction n as [|n IH]; [lia|]. rewrite LS. destruct (r n); [lia|]. destruct ((l n =? 2 ^ w - 1) || (l n =? 0)); [exact IH|].
    pose proof (trunc_range w (l n + e n) ltac:(lia)). lia. }
  assert (ST : forall n, r n = false -> l n <> 2 ^ w - 1 -> l n <> 0 -> l (S n) = l n + e n).
  { intros n R A B. rewrite LS, R. rewrite (proj2 (Z.eqb_neq _ _) A), (proj2 (Z.eqb_neq _ _) B). cbn [orb].
    apply trunc_id. pose proof (RG n). pose proof (E0 n). lia. }
  assert (FZ : forall n, r n = false -> (l n = 0 \/ l n = 2 ^ w - 1) -> l (S n) = l n).
  { intros n R [A | A]; rewrite LS, R, A; rewrite Z.eqb_refl; [rewrite orb_true_r|]; reflexivity. }
  split.
  - exact RG.
  - exact L0.
  - intros n R. rewrite LS, R. reflexivity.
  - intros n R. destruct (Z.eq_dec (l n) 0) as [A | A]; [left; apply FZ; auto|].
    destruct (Z.eq_dec (l n) (2 ^ w - 1)) as [B | B]; [left; apply FZ; auto|]. right. apply ST; assumption.
  - intros n k H. induction k as [|k IH]; intros J; [rewrite Nat.add_0_r; reflexivity|].
    rewrite Nat.add_succ_r. rewrite FZ; [apply IH; intros; apply J; lia|apply J; lia|].
    rewrite IH by (intros; apply J; lia). exact H.
  - intros a k A. induction k as [|k IH]; intros J B; [rewrite Nat.add_0_r; cbn [error_sum]; lia|].
    rewrite Nat.add_succ_r. cbn [error_sum]. pose proof (B k ltac:(lia)) as Bk.
    assert (IHk : l (a + k)%nat = 2 ^ (w - 1) + error_sum e a k) by (apply IH; intros; [apply J|apply B]; lia).
    rewrite ST; [lia|apply J; lia|lia|lia].
Qed.

(** Spartan-6: a valid early sample counts down, a valid late sample up, nothing while a delay line
    is busy. *)
Definition s6_error (i : l6_in) : Z :=
  if l6_mbusy i || l6_sbusy i || negb (l6_valid i) then 0 else if l6_incdec i then -1 else 1.
Theorem C59_s6_saturates : forall w, 1 <= w -> forall i,
  saturating w (fun n => s6_error (i n)) (fun n => l6_reset (i n)) (l6_run w i).
Proof.
  intros w Hw i.
  assert (P : 1 <= 2 ^ (w - 1)) by (apply (Z.pow_le_mono_r 2 0); lia).
  assert (P2 : 2 ^ w = 2 * 2 ^ (w - 1)) by (rewrite <- Z.pow_succ_r by lia; f_equal; lia).
  assert (RG : forall n, 0 <= l6_run w i n < 2 ^ w).
  { induction n as [|n IH]; [change (l6_run w i 0) with (2 ^ (w - 1)); lia|].
    change (l6_run w i (S n)) with (l6_step w (l6_run w i n) (i n)). unfold l6_step.
    destruct (l6_reset (i n)); [apply trunc_range; lia|].
    destruct (negb (l6_mbusy (i n)) && negb (l6_sbusy (i n)) && negb (too_late w (l6_run w i n)) && negb (too_early (l6_run w i n))); [|exact IH].
    destruct (l6_valid (i n) && negb (l6_incdec (i n))); [apply trunc_range; lia|].
    destruct (l6_valid (i n) && l6_incdec (i n)); [apply trunc_range; lia|exact IH]. }
  apply saturating_intro; [exact Hw| |reflexivity|].
  - intros n. unfold s6_error. destruct (l6_mbusy (i n) || l6_sbusy (i n) || negb (l6_valid (i n))); [lia|destruct (l6_incdec (i n)); lia].
  - intros n. change (l6_run w i (S n)) with (l6_step w (l6_run w i n) (i n)). unfold l6_step, too_late, too_early, s6_error.
    destruct (l6_reset (i n)); [apply trunc_id; lia|].
    destruct (l6_run w i n =? 2 ^ w - 1); cbn [negb orb]; [rewrite !andb_false_r; reflexivity|].
    destruct (l6_run w i n =? 0); cbn [negb orb]; [rewrite !andb_false_r; reflexivity|].
    destruct (l6_mbusy (i n)), (l6_sbusy (i n)), (l6_valid (i n)), (l6_incdec (i n)); cbn [negb andb orb];
      rewrite ?Z.add_0_r; try reflexivity; symmetry; apply trunc_id; apply RG.
Qed.

(** Series 7: a change of the master sample counts down if the slave sample agrees (too early) and
    up if it does not (too late).  The previous master sample of clock 0 is 0. *)
Definition s7_error (prev m s : Z) : Z := if prev =? m then 0 else if m =? s then -1 else 1.
Definition byte_in (i : nat -> l7_in) : Prop := forall n, 0 <= l7_m (i n) < 256 /\ 0 <= l7_s (i n) < 256.
Definition prev_m (i : nat -> l7_in) (n : nat) : Z := match n with O => 0 | S k => l7_m (i k) end.
Theorem C59_s7_saturates : forall w, 1 <= w -> forall i, byte_in i ->
  saturating w (fun n => s7_error (prev_m i n) (l7_m (i n)) (l7_s (i n))) (fun n => l7_reset (i n)) (fun n => l7_late (l7_run w i n)).
Proof.
  intros w Hw i B.
  assert (P : 1 <= 2 ^ (w - 1)) by (apply (Z.pow_le_mono_r 2 0); lia).
  assert (P2 : 2 ^ w = 2 * 2 ^ (w - 1)) by (rewrite <- Z.pow_succ_r by lia; f_equal; lia).
  assert (T8 : forall n, trunc 8 (l7_m (i n)) = l7_m (i n) /\ trunc 8 (l7_s (i n)) = l7_s (i n)).
  { intros n. destruct (B n). split; apply trunc_id; change (2 ^ 8) with 256; lia. }
  assert (MD : forall n, l7_md (l7_run w i n) = prev_m i n).
  { intros [|n]; [reflexivity|]. change (l7_run w i (S n)) with (l7_step w (l7_run w i n) (i n)). cbn [l7_step l7_md prev_m].
    unfold pd_step. apply T8. }
  assert (RG : forall n, 0 <= l7_late (l7_run w i n) < 2 ^ w).
  { induction n as [|n IH]; [change (l7_late (l7_run w i 0)) with (2 ^ (w - 1)); lia|].
    change (l7_run w i (S n)) with (l7_step w (l7_run w i n) (i n)). unfold l7_step. cbn [l7_late].
    destruct (l7_reset (i n)); [apply trunc_range; lia|].
    destruct (negb (too_late w (l7_late (l7_run w i n))) && negb (too_early (l7_late (l7_run w i n)))); [|exact IH].
    destruct (pd_inc _ _ _); [apply trunc_range; lia|]. destruct (pd_dec _ _ _); [apply trunc_range; lia|exact IH]. }
  apply saturating_intro; [exact Hw| |reflexivity|].
  - intros n. unfold s7_error. destruct (_ =? _); [lia|]. destruct (_ =? _); lia.
  - intros n. change (l7_run w i (S n)) with (l7_step w (l7_run w i n) (i n)). unfold l7_step. cbn [l7_late].
    unfold too_late, too_early, pd_inc, pd_dec, pd_transition, s7_error. rewrite MD. destruct (T8 n) as [-> ->].
    destruct (l7_reset (i n)); [apply trunc_id; lia|].
    destruct (l7_late (l7_run w i n) =? 2 ^ w - 1); cbn [negb orb andb]; [reflexivity|].
    destruct (l7_late (l7_run w i n) =? 0); cbn [negb orb andb]; [reflexivity|].
    destruct (prev_m i n =? l7_m (i n)); cbn [negb andb]; [rewrite Z.add_0_r; symmetry; apply trunc_id; apply RG|].
    destruct (l7_m (i n) =? l7_s (i n)); cbn [negb andb]; reflexivity.
Qed.

(** The two flags software reads are never both set. *)
Theorem C59_flags_exclusive : forall w l, 1 <= w -> too_late w l && too_early l = false.
Proof.
  intros w l Hw. unfold too_late, too_early. destruct (Z.eqb_spec l (2 ^ w - 1)) as [A | A], (Z.eqb_spec l 0) as [B | B]; try reflexivity.
  exfalso. assert (2 ^ 1 <= 2 ^ w) by (apply Z.pow_le_mono_r; lia). change (2 ^ 1) with 2 in *. lia.
Qed.

(** The requests the Series 7 detector makes, in terms of the sampled wires, are exclusive and need
    a change of the received group. *)
Theorem C59_s7_requests : forall inverted d q qs,
  let m := s7_mdata inverted q in let s := s7_sdata inverted qs in
  pd_inc d m s && pd_dec d m s = false /\ (d = m -> pd_inc d m s = false /\ pd_dec d m s = false) /\
  (d <> m -> pd_inc d m s || pd_dec d m s = true).
Proof.
  intros inverted d q qs m s. unfold pd_inc, pd_dec, pd_transition.
  destruct (Z.eqb_spec d m), (Z.eqb_spec m s); cbn; (split; [reflexivity|]); split; intros; try contradiction; auto.
Qed.

(** The slave sampler is on the complementary output of the input buffer.  With either polarity
    setting, a change of the group asks for "later" exactly if both samplers saw the same line. *)
Theorem C59_s7_same_line : forall inverted d q qs, 0 <= q < 256 -> 0 <= qs < 256 ->
  let m := s7_mdata inverted q in let s := s7_sdata inverted qs in
  d <> m -> pd_inc d m s = (qs =? 255 - q) /\ pd_dec d m s = negb (qs =? 255 - q).
Proof.
  intros inverted d q qs Q QS m s D. unfold pd_inc, pd_dec, pd_transition. destruct (Z.eqb_spec d m) as [|_]; [contradiction|]. cbn [negb andb].
  assert (E : (m =? s) = (qs =? 255 - q)); [|rewrite E; auto].
  assert (T : forall x, 0 <= x < 256 -> trunc 8 x = x /\ trunc 8 (Z.lnot x) = 255 - x).
  { intros x X. split; [apply trunc_id; change (2 ^ 8) with 256; lia|]. unfold trunc. change (2 ^ 8) with 256.
    replace (Z.lnot x) with (255 - x + (-1) * 256) by (unfold Z.lnot; lia). rewrite Z.mod_add by lia. apply Z.mod_small. lia. }
  unfold m, s, s7_mdata, s7_sdata. destruct (T q Q) as [T1 T2], (T qs QS) as [T3 T4]. destruct inverted; rewrite ?T1, ?T2, ?T3, ?T4.
  - destruct (Z.eqb_spec (255 - q) qs), (Z.eqb_spec qs (255 - q)); try reflexivity; lia.
  - destruct (Z.eqb_spec q (255 - qs)), (Z.eqb_spec qs (255 - q)); try reflexivity; lia.
Qed.
Example same_line_ex : s7_mdata true 0xF1 = s7_sdata true 0x0E /\ s7_mdata false 0xF1 = s7_sdata false 0x0E. Proof. split; reflexivity. Qed.

Definition late_ex (n : nat) : l6_in :=
  {| l6_reset := (n =? 12)%nat; l6_mbusy := (n <? 2)%nat; l6_sbusy := false; l6_valid := true; l6_incdec := false |}.
Example late_ex_run : map (l6_run 3 late_ex) (seq 0 15) = [4; 4; 4; 5; 6; 7; 7; 7; 7; 7; 7; 7; 7; 4; 5].
Proof. reflexivity. Qed.
Definition early_ex (n : nat) : l7_in :=
  {| l7_reset := (n =? 8)%nat; l7_m := if Nat.even n then 0xF0 else 0x0F; l7_s := if Nat.even n then 0xF0 else 0x0F |}.
Example early_ex_run : byte_in early_ex /\ map (fun n => l7_late (l7_run 3 early_ex n)) (seq 0 11) = [4; 3; 2; 1; 0; 0; 0; 0; 0; 4; 3].
Proof. split; [intros n; cbn [early_ex l7_m l7_s]; destruct (Nat.even n); lia|reflexivity]. Qed.

(** * C60: gears *)

Lemma slice_bit : forall lo n x k, 0 <= lo -> 0 <= k < n -> Z.testbit (slice lo n x) k = Z.testbit x (k + lo).
Proof. intros lo n x k Hl Hk. unfold slice. rewrite Z.mod_pow2_bits_low by lia. apply Z.div_pow2_bits; lia. Qed.

Lemma to_bits_app : forall a b x, to_bits (a + b) x = to_bits a x ++ map (fun k => Z.testbit x (Z.of_nat (a + k))) (seq 0 b).
Proof.
  intros a b x. unfold to_bits. rewrite seq_app, map_app. f_equal. rewrite Nat.add_0_l.
  rewrite <- (map_map (fun k => (a + k)%nat) (fun k => Z.testbit x (Z.of_nat k)) (seq 0 b)). f_equal.
  clear x. revert a. induction b as [|b IH]; intros a; [reflexivity|]. cbn [seq map]. rewrite Nat.add_0_r. f_equal.
  rewrite (IH (S a)). rewrite <- (seq_shift b 0), map_map. apply map_ext. intros k. lia.
Qed.

Lemma to_bits_ext : forall n x y, (forall k, (k < n)%nat -> Z.testbit x (Z.of_nat k) = Z.testbit y (Z.of_nat k)) -> to_bits n x = to_bits n y.
Proof. intros n x y H. unfold to_bits. apply map_ext_in. intros k Hk. apply in_seq in Hk. apply H. lia. Qed.

Lemma to_bits_lnot : forall (n : nat) x, to_bits n (trunc (Z.of_nat n) (Z.lnot x)) = map negb (to_bits n x).
Proof.
  intros n x. unfold to_bits. rewrite map_map. apply map_ext_in. intros k Hk. apply in_seq in Hk.
  unfold trunc. rewrite Z.mod_pow2_bits_low by lia. apply Z.lnot_spec. lia.
Qed.

Definition flip (b : bool) : list bool -> list bool := map (xorb b).
Lemma flip_false : forall l, flip false l = l.
Proof. intros l. unfold flip. rewrite <- (map_id l) at 2. apply map_ext. intros []; reflexivity. Qed.
Lemma flip_true : forall l, flip true l = map negb l.
Proof. intros l. apply map_ext. intros []; reflexivity. Qed.
Lemma flip_app : forall b l m, flip b (l ++ m) = flip b l ++ flip b m.
Proof. intros. apply map_app. Qed.
Lemma flip_flip : forall a b l, flip a (flip b l) = flip (xorb a b) l.
Proof. intros a b l. unfold flip. rewrite map_map. apply map_ext. intros c. symmetry. apply xorb_assoc. Qed.

(** Output: the two five-bit groups of pix clock k carry the ten bits of word k, least significant
    bit first, complemented if the pads are declared inverted. *)
Theorem C60_output_gear : forall inverted w k,
  out_bits (gear10_5 inverted w (2 * k)) ++ out_bits (gear10_5 inverted w (2 * k + 1)) = flip inverted (to_bits 10 (w k)).
Proof.
  intros inv w k. unfold gear10_5, out_bits.
  replace (Nat.even (2 * k)) with true by (symmetry; apply Nat.even_spec; exists k; reflexivity).
  replace (Nat.even (2 * k + 1)) with false by (symmetry; rewrite Nat.even_add, Nat.even_mul; reflexivity).
  replace (Nat.div2 (2 * k)) with k by (symmetry; apply Nat.div2_double).
  replace (Nat.div2 (2 * k + 1)) with k by (symmetry; rewrite Nat.add_1_r; apply Nat.div2_succ_double).
  cbv zeta iota.
  assert (E : to_bits 10 (w k) = to_bits 5 (slice 0 5 (w k)) ++ to_bits 5 (slice 5 5 (w k))).
  { change 10%nat with (5 + 5)%nat. rewrite to_bits_app. f_equal.
    - apply to_bits_ext. intros j Hj. rewrite slice_bit by lia. f_equal. lia.
    - unfold to_bits. apply map_ext_in. intros j Hj. apply in_seq in Hj. rewrite slice_bit by lia. f_equal. lia. }
  rewrite E. destruct inv.
  - rewrite flip_app, !flip_true. f_equal; apply (to_bits_lnot 5).
  - rewrite flip_false. reflexivity.
Qed.

(** Series 7 output: same order from the ten-bit serialiser. *)
Theorem C60_s7_output : forall inverted w, ser7_bits inverted w = flip inverted (to_bits 10 w).
Proof.
  intros inverted w.
  assert (E : forall x, ser7_bits false x = to_bits 10 (trunc 10 x)) by reflexivity.
  assert (T : forall x, to_bits 10 (trunc 10 x) = to_bits 10 x).
  { intros x. apply to_bits_ext. intros k Hk. unfold trunc. rewrite Z.mod_pow2_bits_low by lia. reflexivity. }
  destruct inverted.
  - change (ser7_bits true w) with (to_bits 10 (trunc 10 (Z.lnot w))). rewrite flip_true. apply (to_bits_lnot 10).
  - rewrite flip_false, E. apply T.
Qed.

(** Input: the word taken at a pixel clock edge at the end of half clock h is the two groups received
    in half clocks h-2 and h-1, in order. *)
Lemma dg_dsr_bits : forall inv g pe n, 0 <= dg_dsr (dg_run inv g pe n) < 1024 /\
  dg_dsr (dg_run inv g pe (S (S n))) = trunc 5 (g n) + 32 * trunc 5 (g (S n)).
Proof.
  intros inv g pe n.
  assert (R : forall m, 0 <= dg_dsr (dg_run inv g pe m) < 1024).
  { intros [|m]; [cbn; lia|]. change (dg_run inv g pe (S m)) with (dg_step inv (dg_run inv g pe m) (g m, pe m)).
    cbn [dg_step dg_dsr]. pose proof (trunc_range 10 (slice 5 5 (dg_dsr (dg_run inv g pe m)) + 32 * trunc 5 (fst (g m, pe m))) ltac:(lia)) as T.
    change (2 ^ 10) with 1024 in T. lia. }
  split; [apply R|].
  assert (S1 : forall m, dg_dsr (dg_run inv g pe (S m)) = dg_dsr (dg_run inv g pe m) / 32 + 32 * trunc 5 (g m)).
  { intros m. change (dg_run inv g pe (S m)) with (dg_step inv (dg_run inv g pe m) (g m, pe m)). cbn [dg_step dg_dsr fst].
    pose proof (R m) as Rm. pose proof (trunc_range 5 (g m) ltac:(lia)) as T. change (2 ^ 5) with 32 in T.
    unfold slice. change (2 ^ 5) with 32.
    assert (D : 0 <= dg_dsr (dg_run inv g pe m) / 32 < 32) by (split; [apply Z.div_pos; lia|apply Z.div_lt_upper_bound; lia]).
    rewrite (Z.mod_small (dg_dsr (dg_run inv g pe m) / 32)) by exact D. apply trunc_id. change (2 ^ 10) with 1024. lia. }
  rewrite S1, S1. pose proof (trunc_range 5 (g n) ltac:(lia)) as T. change (2 ^ 5) with 32 in T.
  rewrite Z.mul_comm, Z.div_add by lia. rewrite Z.div_div by lia. rewrite (Z.div_small _ (32 * 32)) by (pose proof (R n); lia).
  lia.
Qed.

Lemma cat_bits : forall a b, to_bits 10 (trunc 5 a + 32 * trunc 5 b) = to_bits 5 a ++ to_bits 5 b.
Proof.
  intros a b. change 10%nat with (5 + 5)%nat. rewrite to_bits_app.
  pose proof (trunc_range 5 a ltac:(lia)) as Ta. change (2 ^ 5) with 32 in Ta.
  f_equal.
  - apply to_bits_ext. intros k Hk. rewrite <- (Z.mod_pow2_bits_low _ 5) by lia. change (2 ^ 5) with 32.
    rewrite (Z.mul_comm 32), Z.mod_add by lia. rewrite Z.mod_small by lia. unfold trunc. apply Z.mod_pow2_bits_low. lia.
  - unfold to_bits. apply map_ext_in. intros k Hk. apply in_seq in Hk.
    replace (Z.of_nat (5 + k)) with (Z.of_nat k + 5) by lia. rewrite <- Z.div_pow2_bits by lia. change (2 ^ 5) with 32.
    rewrite (Z.mul_comm 32), Z.div_add by lia. rewrite Z.div_small by lia. rewrite Z.add_0_l.
    unfold trunc. apply Z.mod_pow2_bits_low. lia.
Qed.

Theorem C60_input_gear : forall inverted g pixedge h, pixedge (h + 2)%nat = true ->
  to_bits 10 (dg_d (dg_run inverted g pixedge (h + 3))) = flip inverted (to_bits 5 (g h) ++ to_bits 5 (g (h + 1)%nat)).
Proof.
  intros inv g pe h H. replace (h + 3)%nat with (S (h + 2)) by lia.
  change (dg_run inv g pe (S (h + 2))) with (dg_step inv (dg_run inv g pe (h + 2)) (g (h + 2)%nat, pe (h + 2)%nat)).
  cbn [dg_step dg_d snd]. rewrite H. destruct (dg_dsr_bits inv g pe h) as [_ E].
  replace (h + 2)%nat with (S (S h)) by lia. rewrite E. replace (h + 1)%nat with (S h) by lia. destruct inv.
  - rewrite flip_true. rewrite <- cat_bits. apply (to_bits_lnot 10).
  - rewrite flip_false. apply cat_bits.
Qed.

(** * The whole serial link *)

(** Bit [t] of the sequence of words, least significant bit of word 0 first. *)
Definition word_bit (w : nat -> Z) (t : nat) : bool := Z.testbit (w (t / 10)%nat) (Z.of_nat (t mod 10)).
(** Bit [t] on the output pin: five bits per half clock. *)
Definition pin_bit (inverted : bool) (w : nat -> Z) (t : nat) : bool :=
  nth (t mod 5) (out_bits (gear10_5 inverted w (t / 5))) false.
(** Groups a deserialiser makes of a bit stream, starting at bit [skew]. *)
Definition groups_of (line : nat -> bool) (skew h : nat) : Z := of_bits (map (fun j => line (skew + 5 * h + j)%nat) (seq 0 5)).

Lemma pin_bit_word : forall inv w t, pin_bit inv w t = xorb inv (word_bit w t).
Proof.
  intros inv w t. unfold pin_bit, word_bit.
  set (k := (t / 10)%nat). pose proof (Nat.div_mod t 10 ltac:(lia)) as E. fold k in E.
  pose proof (Nat.mod_upper_bound t 10 ltac:(lia)) as U. set (r := (t mod 10)%nat) in *.
  pose proof (C60_output_gear inv w k) as G.
  assert (N : nth r (flip inv (to_bits 10 (w k))) (xorb inv false) = xorb inv (Z.testbit (w k) (Z.of_nat r))).
  { unfold flip. rewrite map_nth. f_equal. unfold to_bits.
    pose proof (map_nth (fun k0 => Z.testbit (w k) (Z.of_nat k0)) (seq 0 10) 0%nat r) as M. cbv beta in M. rewrite seq_nth in M by lia.
    rewrite (nth_indep _ _ (Z.testbit (w k) (Z.of_nat 0))) by (rewrite map_length, seq_length; lia). exact M. }
  rewrite (nth_indep _ _ false) in N by (unfold flip, to_bits; rewrite !map_length, seq_length; lia).
  rewrite <- G in N. rewrite <- N.
  assert (LN : forall x, length (out_bits x) = 5%nat) by reflexivity.
  destruct (Nat.lt_ge_cases r 5) as [L | L].
  - rewrite app_nth1 by (rewrite LN; lia). replace (t / 5)%nat with (2 * k)%nat by (apply (Nat.div_unique t 5 (2 * k) r); lia).
    replace (t mod 5)%nat with r by (apply (Nat.mod_unique t 5 (2 * k) r); lia). reflexivity.
  - rewrite app_nth2 by (rewrite LN; lia). rewrite LN.
    replace (t / 5)%nat with (2 * k + 1)%nat by (apply (Nat.div_unique t 5 (2 * k + 1) (r - 5)); lia).
    replace (t mod 5)%nat with (r - 5)%nat by (apply (Nat.mod_unique t 5 (2 * k + 1) (r - 5)); lia). reflexivity.
Qed.

Lemma to_of_bits5 : forall l, length l = 5%nat -> to_bits 5 (of_bits l) = l.
Proof.
  intros l H. destruct l as [|a [|b [|c [|d [|e [|]]]]]]; try discriminate H.
  destruct a, b, c, d, e; reflexivity.
Qed.

(** Any word stream sent through the output gear and received by the input gear, whatever the
    polarity of the pads at both ends, the bit at which the receiver starts and the parity of its
    pixel clock: successive received words are successive ten-bit windows of the sent bit stream. *)
Theorem C60_link : forall tx_inv rx_inv w skew pixedge h,
  pixedge (h + 2)%nat = true ->
  let line t := xorb (xorb tx_inv rx_inv) (pin_bit tx_inv w t) in
  to_bits 10 (dg_d (dg_run rx_inv (groups_of line skew) pixedge (h + 3))) =
    map (fun j => word_bit w (skew + 5 * h + j)) (seq 0 10).
Proof.
  intros ti ri w skew pe h H line. rewrite C60_input_gear by exact H.
  unfold groups_of. rewrite !to_of_bits5 by (rewrite map_length, seq_length; reflexivity).
  change (seq 0 10) with (seq 0 5 ++ seq 5 5). rewrite map_app, flip_app. unfold flip. rewrite !map_map. f_equal.
  - apply map_ext. intros j. unfold line. rewrite pin_bit_word. destruct ti, ri, (word_bit w (skew + 5 * h + j)); reflexivity.
  - change (seq 5 5) with (map (fun j => (5 + j)%nat) (seq 0 5)). rewrite map_map. apply map_ext. intros j. unfold line. rewrite pin_bit_word.
    replace (skew + 5 * (h + 1) + j)%nat with (skew + 5 * h + (5 + j))%nat by lia.
    destruct ti, ri, (word_bit w (skew + 5 * h + (5 + j))); reflexivity.
Qed.

Definition words_ex (k : nat) : Z := if Nat.even k then 0x2AB else 0x0F3.
Example link_ex : to_bits 10 (dg_d (dg_run true (groups_of (fun t => xorb true (pin_bit false words_ex t)) 3) Nat.odd 4)) =
  map (word_bit words_ex) (seq 8 10).
Proof. vm_compute. reflexivity. Qed.

Print Assumptions C58_command.
Print Assumptions C58_serialised.
Print Assumptions C59_s6_saturates.
Print Assumptions C59_s7_saturates.
Print Assumptions C59_flags_exclusive.
Print Assumptions C59_s7_requests.
Print Assumptions C59_s7_same_line.
Print Assumptions C60_output_gear.
Print Assumptions C60_s7_output.
Print Assumptions C60_input_gear.
Print Assumptions C60_link.
Print Assumptions C68_drp_ready.
