(** From every state allowed by the invariant, ten clocks with SDA released by
    the master free the line. *)
From Coq Require Import ZArith List Bool Lia Arith.
From Verif Require Import Hdl EdidModel EdidSpec EdidSettle EdidProofs EdidInv EdidLink.
Import ListNotations.
Open Scope nat_scope.

Section R.
Variable mem : Z -> Z.
Variable ab : Z.
Notation bstep := (bstep mem ab).
Notation mk := (mk mem).
Notation settled := (settled mem ab).
Notation Tr := (Tr mem ab).

Definition idle_st (f : ed_fsm) : bool :=
  match f with WAIT_START | RCV_ADDRESS | RCV_OFFSET | ACK_READ => true | _ => false end.

Lemma idle_low : forall f cnt din isr off dd db scl sda x, idle_st f = true -> cnt_ok f cnt = true ->
  bstep (mk f cnt din isr off dd db scl sda) (false, x) = mk f cnt din isr off dd db false x.
Proof.
  intros f cnt din isr off dd db scl sda x If Ck.
  assert (C8 : f = WAIT_START \/ f = ACK_READ \/ Nat.eqb cnt 8 = false).
  { destruct f; try discriminate If; auto; right; right; cbn [cnt_ok] in Ck; apply Nat.ltb_lt in Ck; apply Nat.eqb_neq; lia. }
  unfold EdidSettle.bstep, EdidSettle.mk; cbn [fst snd steps].
  destruct f; try discriminate If; cbn [zero_drv];
  (destruct C8 as [C8 | [C8 | C8]]; try discriminate C8);
  do 10 (ed_eval; rewrite ?C8; cbn [andb orb negb]); reflexivity.
Qed.

Lemma idle_rise : forall f cnt din isr off dd db, idle_st f = true -> cnt_ok f cnt = true ->
  dd && negb db = false ->
  ec_drv (bstep (mk f cnt din isr off dd db false true) (true, true)) = false.
Proof.
  intros f cnt din isr off dd db If Ck R.
  assert (B8 : cnt <= 8).
  { destruct f; cbn [cnt_ok] in Ck; try discriminate If;
    repeat match goal with H : (_ =? _) = true |- _ => apply Nat.eqb_eq in H | H : (_ <? _) = true |- _ => apply Nat.ltb_lt in H
        | H : (_ <=? _) = true |- _ => apply Nat.leb_le in H end; lia. }
  destruct cnt as [|[|[|[|[|[|[|[|[|cnt]]]]]]]]]; [.. | exfalso; lia]; clear B8;
  destruct f; try discriminate If; cbn in Ck; try discriminate Ck;
  unfold EdidSettle.bstep, EdidSettle.mk; cbn [fst snd steps zero_drv]; rewrite R;
  do 10 (ed_eval; cbn [andb orb negb Nat.eqb];
      try match goal with |- context [if (slice ?p ?q ?r =? ?w)%Z then _ else _] => destruct (slice p q r =? w)%Z end);
  cbn [ec_drv]; destruct dd, db; try discriminate R; reflexivity.
Qed.

Lemma idle_slot : forall c f cnt din isr off dd db, idle_st f = true -> cnt_ok f cnt = true ->
  dd && negb db = false ->
  (forall x, bstep c (false, x) = mk f cnt din isr off dd db false x) ->
  exists c', Tr c [true] [true] c'.
Proof.
  intros c f cnt din isr off dd db If Ck R H0.
  exists (bstep (mk f cnt din isr off dd db false true) (true, true)).
  assert (Z0 : zero_drv f = false) by (destruct f; try discriminate If; reflexivity).
  apply slot_Tr with (L := fun x => mk f cnt din isr off dd db false x) (dL := false).
  - exact H0.
  - intros. apply idle_low; assumption.
  - intros. unfold EdidSettle.mk. cbn [ec_drv]. rewrite Z0, R. reflexivity.
  - reflexivity.
  - reflexivity.
  - unfold line. rewrite idle_rise by assumption. reflexivity.
Qed.

Definition frees (n : nat) (c : ed_core) : Prop :=
  exists k outs c', k <= n /\ Tr c (repeat true k) outs c' /\ In true outs.

Lemma frees_idle : forall n c f cnt din isr off dd db, 1 <= n -> idle_st f = true -> cnt_ok f cnt = true ->
  dd && negb db = false ->
  (forall x, bstep c (false, x) = mk f cnt din isr off dd db false x) -> frees n c.
Proof.
  intros n c f cnt din isr off dd db Hn If Ck R H0. destruct (idle_slot c f cnt din isr off dd db If Ck R H0) as [c' T].
  exists 1, [true], c'. split; [exact Hn | split; [exact T | left; reflexivity]].
Qed.

Lemma frees_read : forall n c cnt din isr off, 9 <= n -> cnt < 8 ->
  (forall x, bstep c (false, x) = mk READ cnt din isr off true (Z.testbit (mem off) (7 - Z.of_nat cnt)) false x) ->
  frees n c.
Proof.
  intros n c cnt din isr off Hn C H0.
  destruct (read_bits mem ab (7 - cnt) c cnt din isr off ltac:(lia) H0) as (din' & db & y & T).
  pose proof (readack_slot mem ab din' isr off true db y true) as TA.
  eexists (S (7 - cnt) + 1), _, _. split; [lia|]. rewrite repeat_app. cbn [repeat] in *. split.
  - eapply Tr_app; [exact T | exact TA].
  - apply in_or_app. right. left. reflexivity.
Qed.

Lemma frees_more : forall n c c' outs, Tr c [true] outs c' -> frees n c' -> frees (S n) c.
Proof.
  intros n c c' outs T (k & o & c2 & Hk & T2 & Hi). exists (S k), (outs ++ o), c2. split; [lia|]. split.
  - change (repeat true (S k)) with ([true] ++ repeat true k). eapply Tr_app; eassumption.
  - apply in_or_app. right. exact Hi.
Qed.

Lemma ack_slot' : forall c f1 f2 din isr off dd db,
  (f1 = ACK_ADDRESS1 /\ f2 = ACK_ADDRESS2) \/ (f1 = ACK_OFFSET1 /\ f2 = ACK_OFFSET2) ->
  (forall x, bstep c (false, x) = mk f1 8 din isr off dd db false x) ->
  Tr c [true] [false] (mk f2 0 din isr off dd db true false).
Proof.
  intros c f1 f2 din isr off dd db Hf H0.
  apply slot_Tr with (L := fun x => mk f1 8 din isr off dd db false x) (dL := true).
  - exact H0.
  - intros y' x. apply ack_low. tauto.
  - intros y'. destruct Hf as [(-> & ->) | (-> & ->)]; reflexivity.
  - reflexivity.
  - apply ack_rise. tauto.
  - destruct Hf as [(-> & ->) | (-> & ->)]; reflexivity.
Qed.

Lemma frees_ack2 : forall n din isr off dd db, 9 <= n -> dd && negb db = false ->
  frees n (mk ACK_ADDRESS2 0 din isr off dd db true false).
Proof.
  intros n din isr off dd db Hn R. destruct isr.
  - apply frees_read with (cnt := 0) (din := din) (isr := true) (off := off); [exact Hn | lia |].
    intros x. apply ack_read.
  - apply frees_idle with (f := RCV_OFFSET) (cnt := 0) (din := din) (isr := false) (off := off) (dd := dd) (db := db);
      [lia | reflexivity | reflexivity | exact R |]. intros x. apply ack_write.
Qed.

Lemma frees_offset2 : forall n din isr off dd db, 9 <= n -> dd && negb db = false ->
  frees n (mk ACK_OFFSET2 0 din isr off dd db true false).
Proof.
  intros n din isr off dd db Hn R.
  apply frees_idle with (f := RCV_ADDRESS) (cnt := 0) (din := din) (isr := isr) (off := off) (dd := dd) (db := db);
      [lia | reflexivity | reflexivity | exact R |]. intros x. apply ack_offset.
Qed.

Lemma inv_frees : forall ml c, settled c -> inv_b mem ml c = true -> frees 10 c.
Proof.
  intros ml c S I. rewrite (settled_mk mem ab c S) in *. clear S.
  destruct c as [scl sda cnt din isr off dat dbit ddrv drv fsm].
  cbn [ec_scl_r ec_sda_r ec_cnt ec_din ec_isr ec_off ec_dat ec_dbit ec_ddrv ec_drv ec_fsm] in *.
  unfold inv_b in I. unfold EdidSettle.mk in I.
  cbn [ec_scl_r ec_sda_r ec_cnt ec_din ec_isr ec_off ec_dat ec_dbit ec_ddrv ec_drv ec_fsm] in I.
  apply andb_true_iff in I. destruct I as [I I5]. apply andb_true_iff in I. destruct I as [I I4].
  apply andb_true_iff in I. destruct I as [I I3]. apply andb_true_iff in I. destruct I as [I1 I2].
  destruct (idle_st fsm) eqn:If.
  { apply frees_idle with (f := fsm) (cnt := cnt) (din := din) (isr := isr) (off := off) (dd := ddrv) (db := dbit);
      [lia | exact If | exact I1 | |].
    - destruct (ddrv && negb dbit); [|reflexivity]. destruct fsm; discriminate.
    - intros x. apply idle_low; assumption. }
  assert (R : fsm <> READ -> ddrv && negb dbit = false).
  { intros Hf. destruct (ddrv && negb dbit); [|reflexivity]. destruct fsm; try discriminate; congruence. }
  destruct fsm; try discriminate If; cbn [cnt_ok] in I1;
    try (apply Nat.eqb_eq in I1; subst cnt); try specialize (R ltac:(discriminate)).
  - eapply frees_more; [|apply frees_ack2; [|exact R]; lia].
    apply ack_slot' with (f1 := ACK_ADDRESS1); [tauto|]. intros x. apply ack_low. tauto.
  - eapply frees_more; [|apply frees_ack2; [|exact R]; lia].
    apply ack_slot' with (f1 := ACK_ADDRESS1); [tauto|]. intros x. apply ack_low. tauto.
  - subst scl. destruct isr.
    + apply frees_read with (cnt := 0) (din := din) (isr := true) (off := off); [lia | lia |].
      intros x. apply ack_read.
    + apply frees_idle with (f := RCV_OFFSET) (cnt := 0) (din := din) (isr := false) (off := off) (dd := ddrv) (db := dbit);
      [lia | reflexivity | reflexivity | exact R |]. intros x. apply ack_write.
  - eapply frees_more; [|apply frees_offset2; [|exact R]; lia].
    apply ack_slot' with (f1 := ACK_OFFSET1); [tauto|]. intros x. apply ack_low. tauto.
  - eapply frees_more; [|apply frees_offset2; [|exact R]; lia].
    apply ack_slot' with (f1 := ACK_OFFSET1); [tauto|]. intros x. apply ack_low. tauto.
  - subst scl.
    apply frees_idle with (f := RCV_ADDRESS) (cnt := 0) (din := din) (isr := isr) (off := off) (dd := ddrv) (db := dbit);
      [lia | reflexivity | reflexivity | exact R |]. intros x. apply ack_offset.
  - apply Nat.leb_le in I1. destruct (Nat.eq_dec cnt 8) as [-> | Hc].
    + destruct scl; [|discriminate I5]. eexists 1, _, _. split; [lia|]. cbn [repeat]. split.
      * apply readack_slot.
      * left. reflexivity.
    + apply frees_read with (cnt := cnt) (din := din) (isr := isr) (off := off); [lia | lia |].
      intros x. apply read_low. lia.
Qed.

Lemma frees_seen : forall c ws, frees 10 c -> is_slots (repeat true 10) ws -> In true (seen mem ab c ws).
Proof.
  intros c ws (k & outs & c' & Hk & T & Hi) H.
  replace 10 with (k + (10 - k)) in H by lia. rewrite repeat_app in H.
  apply is_slots_app in H. destruct H as (w1 & w2 & -> & A & B). destruct (T _ A) as [_ E].
  rewrite seen_app, E. apply in_or_app. left. exact Hi.
Qed.

(** The invariant holds after every sample. *)
Variable i : nat -> ed_in.
Hypothesis hpd : forall t, edi_hpd (i t) = true.
Notation smp := (smp mem ab i).
Hypothesis low2 : forall k, fst (smp k) = true -> fst (smp (S k)) = false -> fst (smp (S (S k))) = false.

Lemma Cj_0 : Cj mem ab i 0 = mk WAIT_START 0 0 false 0 false false false false.
Proof.
  assert (K : forall n, n <= 64 -> es_scl_i (edid_run mem ab i n) = false /\ es_sda_i (edid_run mem ab i n) = false).
  { induction n as [|n IH]; intros Hn; [split; reflexivity|].
    rewrite run_S. cbn [edid_step es_scl_i es_sda_i].
    assert (C : es_carry (edid_run mem ab i n) = false).
    { destruct n as [|n]; [reflexivity|]. rewrite carry_run. apply Z.eqb_neq. rewrite Z.mod_small by lia. lia. }
    rewrite C. apply IH. lia. }
  assert (M : forall n, n <= 65 -> es_core (edid_run mem ab i n) = steps n (ed_step mem ab true false false) ec_init).
  { induction n as [|n IH]; intros Hn; [reflexivity|]. rewrite run_S, steps_r. cbn [edid_step es_core].
    destruct (K n ltac:(lia)) as [-> ->]. rewrite hpd, IH by lia. reflexivity. }
  unfold Cj. rewrite M by lia. replace (64 * 0 + 65) with (1 + 64) by reflexivity. rewrite steps_add.
  assert (E : steps 1 (ed_step mem ab true false false) ec_init = mk WAIT_START 0 0 false 0 false false false false) by reflexivity.
  rewrite E.
  pose proof (settled_steps mem ab 64 (mk WAIT_START 0 0 false 0 false false false false)) as SS. apply SS. reflexivity.
Qed.

Definition ml (k : nat) : bool :=
  match k with S (S j) => fst (smp j) && negb (fst (smp (S j))) | _ => false end.

Lemma Cj_inv : forall k, settled (Cj mem ab i (S k)) /\ inv_b mem (ml (S k)) (Cj mem ab i (S k)) = true.
Proof.
  induction k as [|k [S I]].
  - assert (E : Cj mem ab i 1 = bstep (Cj mem ab i 0) (smp 0)) by (apply Cj_S; intros; apply hpd).
    split; [rewrite E; apply bstep_settled|].
    rewrite E, Cj_0. destruct (smp 0) as [scl x]. 
    pose proof (inv_step mem ab false (mk WAIT_START 0 0 false 0 false false false false) scl x eq_refl eq_refl) as K.
    cbn [ml]. change (line (mk WAIT_START 0 0 false 0 false false false false) x) with (x && true) in K.
    rewrite andb_true_r in K. apply K. discriminate.
  - destruct (Cj_S mem ab i (Datatypes.S k)) as [E L']; [intros; apply hpd|].
    destruct (Cj_S mem ab i k) as [Ek Lk]; [intros; apply hpd|].
    split; [rewrite E; apply bstep_settled|]. rewrite E.
    replace (ml (Datatypes.S (Datatypes.S k))) with (ec_scl_r (Cj mem ab i (Datatypes.S k)) && negb (fst (smp (Datatypes.S k)))).
    2:{ cbn [ml]. rewrite Ek, bstep_scl. reflexivity. }
    rewrite Lk at 2. cbn [fst]. rewrite Lk at 1. cbn [fst].
    apply inv_step with (ml := ml (Datatypes.S k)); [exact S | exact I |].
    intros Hm. destruct k as [|j]; [discriminate Hm|]. cbn [ml] in Hm. apply andb_true_iff in Hm.
    destruct Hm as [A B]. apply negb_true_iff in B. pose proof (low2 j A B) as C. exact C.
Qed.
End R.
