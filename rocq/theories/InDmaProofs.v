(** Lemmas about the capture DMA. *)
From Coq Require Import ZArith List Bool Lia Arith.
From Verif Require Import Hdl Trace InDmaModel.
Import ListNotations.
Open Scope nat_scope.

Section D.
Variables aw dw align : Z.
Hypothesis Haw : (0 < aw)%Z.
Variable s0 : dma_st.
Variable i : nat -> dma_in.
Let st := dma_run aw dw align s0 i.

(** A word is accepted by the memory writer in clock [t] (seen from outside). *)
Definition accepted (i : nat -> dma_in) (t : nat) : bool := dmi_valid (i t) && dmi_ready (i t).
(** Data of that word. *)
Definition accepted_word (dw : Z) (i : nat -> dma_in) (t : nat) : option Z :=
  if accepted i t then Some (trunc dw (dmi_px (i t))) else None.
(** Write issued in clock [t]. *)
Definition write_at (t : nat) : option (Z * Z) := dm_write dw (st t) (i t).

Lemma st_S : forall n, st (S n) = dma_step aw dw align (st n) (i n).
Proof. reflexivity. Qed.

Lemma trunc_add : forall a b, trunc aw (trunc aw a + b) = trunc aw (a + b).
Proof. intros. unfold trunc. rewrite Zplus_mod_idemp_l. reflexivity. Qed.

Lemma after_start : forall t0, dm_start (st t0) (i t0) = true ->
  dm_fsm (st (S t0)) = TRANSFER /\
  dm_addr (st (S t0)) = sl_word aw align (dm_slot (st t0)) /\
  dm_left (st (S t0)) = slice align aw (dmi_size (i t0)) /\
  dm_fsm (st t0) = WAIT_SOF.
Proof.
  intros t0 H. rewrite st_S. unfold dma_step. cbn [dm_fsm dm_addr dm_left].
  rewrite H. unfold dm_start in H. destruct (dm_fsm (st t0)); try discriminate. auto.
Qed.

(** While fewer than [N] words have been accepted since the start. *)
Lemma transferring : forall t0 a N, dm_start (st t0) (i t0) = true ->
  a = sl_word aw align (dm_slot (st t0)) -> (Z.of_nat N = if slice align aw (dmi_size (i t0)) =? 0 then 2 ^ aw else slice align aw (dmi_size (i t0)))%Z ->
  forall m, occurrences (accepted i) (S t0) m < N ->
  dm_fsm (st (S t0 + m)) = TRANSFER /\
  dm_addr (st (S t0 + m)) = trunc aw (a + Z.of_nat (occurrences (accepted i) (S t0) m)) /\
  dm_left (st (S t0 + m)) = trunc aw (Z.of_nat N - Z.of_nat (occurrences (accepted i) (S t0) m)).
Proof.
  intros t0 a N Hs Ha HN m. destruct (after_start t0 Hs) as (F & A & L & _).
  assert (Hsl : forall x, (0 <= slice align aw x < 2 ^ aw)%Z).
  { intros x. unfold slice. apply Z.mod_pos_bound. apply Z.pow_pos_nonneg; lia. }
  induction m as [|m IH]; intros Hm.
  - rewrite Nat.add_0_r. cbn [occurrences]. rewrite Z.add_0_r, Z.sub_0_r. split; [exact F|]. split.
    + rewrite A, <- Ha. symmetry. apply trunc_id. rewrite Ha. unfold sl_word. apply Hsl.
    + rewrite L. rewrite HN. destruct (Z.eqb_spec (slice align aw (dmi_size (i t0))) 0) as [E|E].
      * rewrite E. unfold trunc. rewrite Z.mod_same by (apply Z.pow_nonzero; lia). reflexivity.
      * symmetry. apply trunc_id. apply Hsl.
  - cbn [occurrences] in Hm. rewrite Nat.add_succ_r. rewrite st_S.
    destruct (IH ltac:(lia)) as (F1 & A1 & L1).
    unfold dma_step. cbn [dm_fsm dm_addr dm_left]. unfold dm_write. rewrite F1.
    cbn [occurrences].
    change (dmi_valid (i (S t0 + m)) && dmi_ready (i (S t0 + m))) with (accepted i (S t0 + m)).
    destruct (accepted i (S t0 + m)) eqn:E; rewrite ?E in Hm.
    + rewrite A1, L1. cbn [andb].
      set (k := occurrences (accepted i) (S t0) m) in *.
      assert (HK : (2 <= Z.of_nat N - Z.of_nat k <= 2 ^ aw)%Z).
      { split; [lia|]. rewrite HN. destruct (Z.eqb_spec (slice align aw (dmi_size (i t0))) 0); [lia|].
        specialize (Hsl (dmi_size (i t0))). lia. }
      destruct (Z.eqb_spec (trunc aw (Z.of_nat N - Z.of_nat k)) 1) as [X|X].
      * exfalso. destruct (Z.eq_dec (Z.of_nat N - Z.of_nat k) (2 ^ aw)) as [Y|Y].
        -- rewrite Y in X. unfold trunc in X. rewrite Z.mod_same in X by (apply Z.pow_nonzero; lia). discriminate.
        -- rewrite trunc_id in X by lia. lia.
      * repeat split.
        -- rewrite trunc_add. f_equal. lia.
        -- unfold Z.sub. rewrite trunc_add. f_equal. lia.
    + cbn [andb]. rewrite Nat.add_0_r. repeat split; assumption.
Qed.

(** End of the transfer. *)
Lemma finishing : forall t0 a N m, dm_start (st t0) (i t0) = true ->
  a = sl_word aw align (dm_slot (st t0)) -> (Z.of_nat N = if slice align aw (dmi_size (i t0)) =? 0 then 2 ^ aw else slice align aw (dmi_size (i t0)))%Z ->
  occurrences (accepted i) (S t0) m = N - 1 -> accepted i (S t0 + m) = true ->
  forall q, (forall t, S t0 + m < t < S t0 + m + S q -> dmi_wbusy (i t) = true) ->
  dm_fsm (st (S t0 + m + S q)) = EOF /\ dm_addr (st (S t0 + m + S q)) = trunc aw (a + Z.of_nat N).
Proof.
  intros t0 a N m Hs Ha HN Hm Hacc.
  assert (1 <= N).
  { pose proof (Z.pow_pos_nonneg 2 aw ltac:(lia) ltac:(lia)).
    assert (0 <= slice align aw (dmi_size (i t0)))%Z by (unfold slice; apply Z.mod_pos_bound; lia).
    destruct (Z.eqb_spec (slice align aw (dmi_size (i t0))) 0); lia. }
  destruct (transferring t0 a N Hs Ha HN m ltac:(lia)) as (F & A & L).
  induction q as [|q IH]; intros Hb.
  - rewrite Nat.add_1_r, st_S. unfold dma_step. cbn [dm_fsm dm_addr]. unfold dm_write. rewrite F.
    change (dmi_valid (i (S t0 + m)) && dmi_ready (i (S t0 + m))) with (accepted i (S t0 + m)).
    rewrite Hacc. cbn [andb]. rewrite L, Hm. replace (Z.of_nat N - Z.of_nat (N - 1))%Z with 1%Z by lia.
    rewrite trunc_id by (split; [lia|]; apply Z.pow_gt_1; lia). split; [reflexivity|].
    rewrite A, Hm, trunc_add. f_equal. lia.
  - rewrite Nat.add_succ_r, st_S. destruct (IH ltac:(intros; apply Hb; lia)) as (F1 & A1).
    unfold dma_step. cbn [dm_fsm dm_addr]. unfold dm_done, dm_write. rewrite F1, A1.
    rewrite Hb by lia. split; reflexivity.
Qed.

(** The writes of a transfer. *)
Lemma writes : forall t0 a N, dm_start (st t0) (i t0) = true ->
  a = sl_word aw align (dm_slot (st t0)) -> (Z.of_nat N = if slice align aw (dmi_size (i t0)) =? 0 then 2 ^ aw else slice align aw (dmi_size (i t0)))%Z ->
  forall m, occurrences (accepted i) (S t0) m <= N ->
  (m = 0 \/ occurrences (accepted i) (S t0) (m - 1) < N) ->
  collect write_at (S t0) m
  = combine (map (fun j => trunc aw (a + Z.of_nat j)) (seq 0 (occurrences (accepted i) (S t0) m)))
            (collect (accepted_word dw i) (S t0) m).
Proof.
  intros t0 a N Hs Ha HN m. induction m as [|m IH]; intros Hm Hl; [reflexivity|].
  destruct Hl as [|Hl]; [lia|]. replace (S m - 1) with m in Hl by lia. cbn [collect occurrences].
  assert (HL : length (collect (accepted_word dw i) (S t0) m) = occurrences (accepted i) (S t0) m).
  { rewrite collect_length. apply occurrences_ext. intros t _. unfold accepted_word. destruct (accepted i t); reflexivity. }
  rewrite IH; [|lia|].
  2:{ destruct m as [|m]; [left; reflexivity|right]. cbn [occurrences] in Hl. replace (S m - 1) with m by lia. lia. }
  destruct (transferring t0 a N Hs Ha HN m Hl) as (F & A & _).
  assert (W : write_at (S t0 + m) = if accepted i (S t0 + m) then Some (dm_addr (st (S t0 + m)), trunc dw (dmi_px (i (S t0 + m)))) else None)
    by (unfold write_at, dm_write; rewrite F; reflexivity).
  assert (V : accepted_word dw i (S t0 + m) = if accepted i (S t0 + m) then Some (trunc dw (dmi_px (i (S t0 + m)))) else None)
    by reflexivity.
  rewrite W, V.
  destruct (accepted i (S t0 + m)).
  - rewrite seq_app, map_app. cbn [seq map]. rewrite Nat.add_0_l, A.
    assert (CA : forall (X Y : Type) (l1 l1' : list X) (l2 l2' : list Y), length l1 = length l2 ->
       combine (l1 ++ l1') (l2 ++ l2') = combine l1 l2 ++ combine l1' l2').
    { induction l1 as [|x l1 IHl]; intros l1' [|y l2] l2' HH; cbn in *; try discriminate; [reflexivity|].
      rewrite IHl by lia. reflexivity. }
    rewrite CA by (rewrite map_length, seq_length, HL; reflexivity). reflexivity.
  - rewrite Nat.add_0_r, !app_nil_r. reflexivity.
Qed.

(** Every clock of a transfer belongs to a start. *)
Lemma transfer_origin : dm_fsm s0 = WAIT_SOF -> forall n,
  (dm_fsm (st n) = TRANSFER ->
     exists t0 m, n = S t0 + m /\ dm_start (st t0) (i t0) = true /\
       (Z.of_nat (occurrences (accepted i) (S t0) m) <
         if slice align aw (dmi_size (i t0)) =? 0 then 2 ^ aw else slice align aw (dmi_size (i t0)))%Z) /\
  (dm_fsm (st n) = EOF -> exists t0 m q, n = S t0 + m + S q /\ dm_start (st t0) (i t0) = true /\
       accepted i (S t0 + m) = true /\
       (Z.of_nat (S (occurrences (accepted i) (S t0) m)) =
         if slice align aw (dmi_size (i t0)) =? 0 then 2 ^ aw else slice align aw (dmi_size (i t0)))%Z /\
       (forall t, S t0 + m < t < S t0 + m + S q -> dmi_wbusy (i t) = true)).
Proof.
  intros Hw n.
  assert (Hpow : (2 <= 2 ^ aw)%Z) by (change 2%Z with (2 ^ 1)%Z at 1; apply Z.pow_le_mono_r; lia).
  assert (Hsl : forall x, (0 <= slice align aw x < 2 ^ aw)%Z)
    by (intros x; unfold slice; apply Z.mod_pos_bound; lia).
  induction n as [|n [IHt IHe]].
  - change (st 0) with s0. rewrite Hw. split; discriminate.
  - rewrite st_S. unfold dma_step. cbn [dm_fsm]. destruct (dm_fsm (st n)) eqn:F.
    + destruct (dm_start (st n) (i n)) eqn:S0; split; try discriminate.
      intros _. exists n, 0. split; [lia|]. split; [exact S0|]. cbn [occurrences].
      specialize (Hsl (dmi_size (i n))). destruct (Z.eqb_spec (slice align aw (dmi_size (i n))) 0); lia.
    + destruct (IHt eq_refl) as (t0 & m & -> & Hs & Hk). clear IHt IHe.
      set (NN := (if slice align aw (dmi_size (i t0)) =? 0 then 2 ^ aw else slice align aw (dmi_size (i t0)))%Z) in *.
      assert (HNN : (0 <= NN <= 2 ^ aw)%Z).
      { unfold NN. specialize (Hsl (dmi_size (i t0))). destruct (Z.eqb_spec (slice align aw (dmi_size (i t0))) 0); lia. }
      set (k := occurrences (accepted i) (S t0) m) in *.
      destruct (transferring t0 _ (Z.to_nat NN) Hs eq_refl ltac:(rewrite Z2Nat.id by lia; reflexivity) m ltac:(lia)) as (_ & _ & L).
      fold k in L. rewrite Z2Nat.id in L by lia.
      unfold dm_write. rewrite F.
      change (dmi_valid (i (S t0 + m)) && dmi_ready (i (S t0 + m))) with (accepted i (S t0 + m)).
      destruct (accepted i (S t0 + m)) eqn:E; cbn [andb].
      * destruct (Z.eqb_spec (dm_left (st (S t0 + m))) 1) as [X|X]; split; try discriminate; intros _.
        -- exists t0, m, 0. repeat split; try assumption; try lia. fold NN. fold k.
           rewrite L in X. destruct (Z.eq_dec (NN - Z.of_nat k) (2 ^ aw)) as [Y|Y].
           ++ rewrite Y in X. unfold trunc in X. rewrite Z.mod_same in X by lia. discriminate.
           ++ rewrite trunc_id in X by lia. lia.
        -- exists t0, (S m). split; [lia|]. split; [exact Hs|]. fold NN. cbn [occurrences]. rewrite E. fold k.
           rewrite L in X. destruct (Z.eq_dec (NN - Z.of_nat k) 1) as [Y|Y]; [|lia].
           rewrite Y, trunc_id in X by lia. congruence.
      * split; try discriminate; intros _.
        exists t0, (S m). split; [lia|]. split; [exact Hs|]. fold NN. cbn [occurrences]. rewrite E. fold k. lia.
    + unfold dm_done. rewrite F. destruct (dmi_wbusy (i n)) eqn:B; cbn [negb]; split; try discriminate. intros _.
      destruct (IHe eq_refl) as (t0 & m & q & -> & Hs & Ha & HN & Hb).
      exists t0, m, (S q). repeat split; try assumption; try lia.
      intros t Ht. destruct (Nat.eq_dec t (S t0 + m + S q)) as [->|]; [exact B|apply Hb; lia].
Qed.

(** ** Slots *)

Lemma nth_slots_step : forall l n cur done reached w j,
  nth j (slots_step aw align n l cur done reached w) slot0 =
  if j <? length l then slot_step aw align (n + j) (nth j l slot0) (done && Nat.eqb cur (n + j)) reached w else slot0.
Proof.
  induction l as [|s l IH]; intros n cur done reached w j; cbn [slots_step length].
  - destruct j; reflexivity.
  - destruct j as [|j]; cbn [nth].
    + rewrite Nat.add_0_r. reflexivity.
    + rewrite IH. change (S j <? S (length l)) with (j <? length l).
      destruct (j <? length l); [|reflexivity]. rewrite Nat.add_succ_r. reflexivity.
Qed.

Lemma slots_length : forall n, length (dm_slots (st n)) = length (dm_slots s0).
Proof.
  induction n as [|n IH]; [reflexivity|]. rewrite st_S. unfold dma_step. cbn [dm_slots].
  rewrite <- IH. clear.
  generalize (dm_done (st n) (i n)) (dm_cur (st n)) (dm_addr (st n)) (dmi_sw (i n)) 0.
  induction (dm_slots (st n)) as [|s l IHl]; intros d c a w k; [reflexivity|]. cbn. rewrite IHl. reflexivity.
Qed.

Lemma lowest_spec : forall l k cur,
  (exists j, j < length l /\ lowest l k cur = k + j /\ sl_loaded (nth j l slot0) = true /\
     forall j', j' < j -> sl_loaded (nth j' l slot0) = false) \/
  (lowest l k cur = cur /\ forall j, j < length l -> sl_loaded (nth j l slot0) = false).
Proof.
  induction l as [|s l IH]; intros k cur; cbn [lowest length].
  - right. split; [reflexivity|]. intros; lia.
  - destruct (sl_loaded s) eqn:E.
    + left. exists 0. repeat split; try lia; try assumption.
    + destruct (IH (S k) cur) as [(j & Hj & -> & L & M)|[-> M]].
      * left. exists (S j). repeat split; try lia; try exact L. intros [|j'] Hj'; [exact E|apply M; lia].
      * right. split; [reflexivity|]. intros [|j] Hj; [exact E|apply M; lia].
Qed.

Lemma cur_bound : dm_cur s0 < length (dm_slots s0) -> forall n, dm_cur (st n) < length (dm_slots s0).
Proof.
  intros H n. induction n as [|n IH]; [exact H|]. rewrite st_S. unfold dma_step. cbn [dm_cur].
  destruct (_ || _); [|exact IH].
  destruct (lowest_spec (dm_slots (st n)) 0 (dm_cur (st n))) as [(j & Hj & -> & _)|[-> _]]; [|exact IH].
  rewrite slots_length in Hj. exact Hj.
Qed.

End D.
