(** C144: the receiver with a driver that loads each of two slots again as soon as it is filled. *)
From Coq Require Import ZArith List Bool Lia Arith.
From Verif Require Import Hdl Trace CdcProofs AnalysisModel FrameProofs FrameProps InDmaModel InDmaProofs InDmaProps FifoModel FifoProofs FifoProps
  CaptureModel CaptureProofs CaptureProps CaptureRateProofs CaptureLiveProofs CaptureLiveProps FairProofs FairProps PictureOrderProps PictureSkipProps PictureFlowProps.
Import ListNotations.
Open Scope nat_scope.

(** The driver, a specification of software: from instant [Tq] on it writes 1 to the status register of a slot that is not loaded, of
    slot 0 first.  Each write takes one sys clock. *)
Definition drv (Tq t : nat) (s : cap_st) : sw :=
  if t <? Tq then SwNone
  else if negb (Z.odd (sl_status (nth 0 (dm_slots (cap_dma s)) slot0))) then SwStatus 0 1
  else if negb (Z.odd (sl_status (nth 1 (dm_slots (cap_dma s)) slot0))) then SwStatus 1 1 else SwNone.
Definition with_sw (e : cap_in) (w : sw) : cap_in :=
  {| cap_pix := cap_pix e; cap_sys := cap_sys e; cap_pk := cap_pk e; cap_mready := cap_mready e; cap_wbusy := cap_wbusy e; cap_size := cap_size e;
     cap_sw := w; cap_mp := cap_mp e; cap_mc := cap_mc e |}.
(** The closed loop, in an environment [e] (its software accesses are not used), and the inputs that the receiver gets in it. *)
Fixpoint loop (n : Z) (F : nat) (lw aw dw align : Z) (mem : list (bool * list Z)) (ra : Z) (Tq : nat) (e : nat -> cap_in) (t : nat) : cap_st :=
  match t with
  | O => {| cap_fe := fe_init F mem ra; cap_dma := dma_init 2 |}
  | S t => let s := loop n F lw aw dw align mem ra Tq e t in cap_step n F lw aw dw align s (with_sw (e t) (drv Tq t s))
  end.
Definition driven (n : Z) (F : nat) (lw aw dw align : Z) (mem : list (bool * list Z)) (ra : Z) (Tq : nat) (e : nat -> cap_in) (t : nat) : cap_in :=
  with_sw (e t) (drv Tq t (loop n F lw aw dw align mem ra Tq e t)).

Section Driver.
Variables (n : Z) (F : nat) (lw aw dw align : Z) (mem : list (bool * list Z)) (ra : Z) (Tq : nat) (e : nat -> cap_in).
Let i := driven n F lw aw dw align mem ra Tq e.
Let st t := cap_run n F lw aw dw align mem ra (dma_init 2) i t.
Let dma t := cap_dma (st t).
Let ld j t := Z.odd (sl_status (nth j (dm_slots (dma t)) slot0)).

Lemma loop_run : forall t, st t = loop n F lw aw dw align mem ra Tq e t.
Proof.
  induction t as [|t IH]; [reflexivity|]. change (st (S t)) with (cap_step n F lw aw dw align (st t) (i t)). rewrite IH. reflexivity.
Qed.
Lemma drv_sw : forall t, cap_sw (i t) = if t <? Tq then SwNone else if negb (ld 0 t) then SwStatus 0 1 else if negb (ld 1 t) then SwStatus 1 1 else SwNone.
Proof. intros t. unfold ld, dma. rewrite loop_run. reflexivity. Qed.
Lemma drv_len : forall t, length (dm_slots (dma t)) = 2.
Proof. intros t. apply slots_count. Qed.
Lemma drv_S : forall t, dma (S t) = if cap_sys (i t) then dma_step aw dw align (dma t) (c_din n F lw aw dw align mem ra (dma_init 2) i t) else dma t.
Proof. intros t. apply c_dma_step. Qed.
Let done t := dm_done (dma t) (c_din n F lw aw dw align mem ra (dma_init 2) i t).
Lemma drv_ld : forall t j, j < 2 -> cap_sys (i t) = true ->
  ld j (S t) = match cap_sw (i t) with SwStatus k _ => if Nat.eqb k j then true else if done t && Nat.eqb (dm_cur (dma t)) j then false else ld j t
               | _ => if done t && Nat.eqb (dm_cur (dma t)) j then false else ld j t end.
Proof.
  intros t j J Q. unfold ld at 1. rewrite drv_S, Q. unfold dma_step; cbn [dm_slots]. rewrite nth_slots_step, drv_len. fold (done t).
  assert (JB : (j <? 2) = true) by (apply Nat.ltb_lt; exact J). rewrite JB, Nat.add_0_l. unfold slot_step.
  change (dmi_sw (c_din n F lw aw dw align mem ra (dma_init 2) i t)) with (cap_sw (i t)). pose proof (drv_sw t) as W.
  destruct (cap_sw (i t)) as [|k v|k v].
  - destruct (done t && Nat.eqb (dm_cur (dma t)) j); reflexivity.
  - assert (V : v = 1%Z) by (destruct (t <? Tq); [discriminate|]; destruct (negb (ld 0 t)); [injection W as _ W; exact W|]; destruct (negb (ld 1 t)); [injection W as _ W; exact W|discriminate]).
    rewrite V. destruct (Nat.eqb k j); [reflexivity|]. destruct (done t && Nat.eqb (dm_cur (dma t)) j); reflexivity.
  - destruct (t <? Tq); [discriminate|]. destruct (negb (ld 0 t)); [discriminate|]. destruct (negb (ld 1 t)); discriminate.
Qed.

(** Unless both slots are loaded the DMA is idle. *)
Lemma drv_inv : forall t, (t <= Tq -> ld 0 t = false /\ ld 1 t = false) /\ (ld 0 t && ld 1 t = false -> dm_fsm (dma t) = WAIT_SOF) /\
  ((ld 0 t || ld 1 t = true) -> ld 0 (S t) || ld 1 (S t) = true).
Proof.
  assert (CUR : forall t, dm_cur (dma t) < 2) by (intros t; apply cur_range; lia).
  assert (DN : forall t, dm_fsm (dma t) = WAIT_SOF -> done t = false) by (intros t H; unfold done, dm_done; rewrite H; reflexivity).
  assert (INV : forall t, (t <= Tq -> ld 0 t = false /\ ld 1 t = false) /\ (ld 0 t && ld 1 t = false -> dm_fsm (dma t) = WAIT_SOF)).
  { induction t as [|t [I1 I2]]; [split; [split; reflexivity|reflexivity]|].
    destruct (cap_sys (i t)) eqn:Q.
    2:{ assert (D : dma (S t) = dma t) by (rewrite drv_S, Q; reflexivity). unfold ld in *. rewrite D. split; [intros; apply I1; lia|exact I2]. }
    pose proof (drv_ld t 0 ltac:(lia) Q) as A0. pose proof (drv_ld t 1 ltac:(lia) Q) as A1. pose proof (drv_sw t) as W.
    split.
    - intros T. destruct (I1 ltac:(lia)) as [L0 L1]. assert (TB : (t <? Tq) = true) by (apply Nat.ltb_lt; lia). rewrite TB in W. rewrite W in A0, A1.
      rewrite (DN t) in A0, A1 by (apply I2; rewrite L0; reflexivity). cbn [andb] in A0, A1. rewrite A0, A1. split; assumption.
    - intros NB. rewrite drv_S, Q. unfold dma_step; cbn [dm_fsm]. fold (done t).
      destruct (ld 0 t && ld 1 t) eqn:BOTH.
      + apply andb_prop in BOTH as [L0 L1]. rewrite L0, L1 in W. cbn [negb] in W.
        assert (W' : cap_sw (i t) = SwNone) by (destruct (t <? Tq); exact W). rewrite W', L0 in A0. rewrite W', L1 in A1.
        destruct (done t) eqn:D; [|cbn [andb] in A0, A1; rewrite A0, A1 in NB; discriminate].
        assert (FE : dm_fsm (dma t) = EOF) by (unfold done, dm_done in D; destruct (dm_fsm (dma t)); [discriminate|discriminate|reflexivity]).
        rewrite FE. reflexivity.
      + specialize (I2 eq_refl). rewrite I2. rewrite (DN t I2) in A0, A1. cbn [andb] in A0, A1.
        destruct (t <? Tq) eqn:TB.
        * apply Nat.ltb_lt in TB. destruct (I1 ltac:(lia)) as [L0 L1]. unfold dm_start, dm_av, dm_slot. rewrite I2, drv_len. pose proof (CUR t) as C.
          replace (Nat.min (dm_cur (dma t)) (2 - 1)) with (dm_cur (dma t)) by lia.
          assert (NL : sl_loaded (nth (dm_cur (dma t)) (dm_slots (dma t)) slot0) = false).
          { unfold sl_loaded. rewrite Z.bit0_odd. destruct (dm_cur (dma t)) as [|[|c]]; [exact L0|exact L1|lia]. }
          rewrite NL. reflexivity.
        * rewrite W in A0, A1. destruct (ld 0 t) eqn:L0; cbn [negb andb] in *.
          -- rewrite BOTH in *. cbn [negb Nat.eqb] in *. rewrite A0, A1 in NB. discriminate.
          -- cbn [Nat.eqb] in *. destruct (ld 1 t) eqn:L1; [rewrite A0, A1 in NB; discriminate|].
             unfold dm_start, dm_av, dm_slot. rewrite I2, drv_len. pose proof (CUR t) as C.
             replace (Nat.min (dm_cur (dma t)) (2 - 1)) with (dm_cur (dma t)) by lia.
             assert (NL : sl_loaded (nth (dm_cur (dma t)) (dm_slots (dma t)) slot0) = false).
             { unfold sl_loaded. rewrite Z.bit0_odd. destruct (dm_cur (dma t)) as [|[|c]]; [exact L0|exact L1|lia]. }
             rewrite NL. reflexivity. }
  intros t. destruct (INV t) as [I1 I2]. split; [exact I1|]. split; [exact I2|]. intros ONE.
  destruct (cap_sys (i t)) eqn:Q.
  2:{ assert (D : dma (S t) = dma t) by (rewrite drv_S, Q; reflexivity). unfold ld in *. rewrite D. exact ONE. }
  pose proof (drv_ld t 0 ltac:(lia) Q) as A0. pose proof (drv_ld t 1 ltac:(lia) Q) as A1. pose proof (drv_sw t) as W.
  destruct (ld 0 t && ld 1 t) eqn:BOTH.
  - apply andb_prop in BOTH as [L0 L1]. rewrite L0, L1 in W. cbn [negb] in W.
    assert (W' : cap_sw (i t) = SwNone) by (destruct (t <? Tq); exact W). rewrite W', L0 in A0. rewrite W', L1 in A1. rewrite A0, A1.
    destruct (done t); [|reflexivity]. cbn [andb]. pose proof (CUR t). destruct (dm_cur (dma t)) as [|[|c]]; reflexivity || lia.
  - rewrite (DN t (I2 eq_refl)) in A0, A1. cbn [andb] in A0, A1.
    destruct (t <? Tq) eqn:TB; [rewrite W in A0, A1; rewrite A0, A1; exact ONE|].
    rewrite W in A0, A1. destruct (ld 0 t); cbn [negb Nat.eqb] in *; [|rewrite A0; reflexivity].
    destruct (negb (ld 1 t)); cbn [Nat.eqb] in *; rewrite A0; reflexivity.
Qed.

(** The driver never writes a register of a loaded slot. *)
Lemma drv_polite : forall t j, cap_sys (i t) = true -> Z.odd (slot_status n F lw aw dw align mem ra 2 i t j) = true ->
  match cap_sw (i t) with SwNone => True | SwStatus k _ => k <> j | SwAddr k _ => k <> j end.
Proof.
  intros t j _ L. change (ld j t = true) in L. rewrite drv_sw. destruct (t <? Tq); [exact I|]. destruct (ld 0 t) eqn:L0; cbn [negb]; [|intros <-; congruence].
  destruct (ld 1 t) eqn:L1; cbn [negb]; [exact I|intros <-; congruence].
Qed.
(** When one slot has been filled the other is loaded. *)
Lemma drv_quick : forall t c, c < 2 -> Z.odd (slot_status n F lw aw dw align mem ra 2 i t c) = true -> exists c', c' < 2 /\ Z.odd (slot_status n F lw aw dw align mem ra 2 i (S t) c') = true.
Proof.
  intros t c C L. change (ld c t = true) in L. destruct (drv_inv t) as (_ & _ & G).
  assert (ONE : ld 0 t || ld 1 t = true) by (destruct c as [|[|c]]; [rewrite L; reflexivity|rewrite L; apply orb_true_r|lia]).
  specialize (G ONE). apply orb_prop in G as [G|G]; [exists 0|exists 1]; (split; [lia|exact G]).
Qed.
(** The driver begins when the DMA is idle, and loads slot 0 in the first sys clock. *)
Lemma drv_begins : forall w, Tq <= w -> (forall t, Tq <= t < w -> cap_sys (i t) = false) -> cap_sys (i w) = true ->
  dma_idle n F lw aw dw align mem ra 2 i (S w) /\ Z.odd (slot_status n F lw aw dw align mem ra 2 i (S w) 0) = true.
Proof.
  intros w W NS Q. assert (L : forall t, Tq <= t -> t <= w -> ld 0 t = false /\ ld 1 t = false).
  { intros t T. induction T as [|t T IH]; intros TW; [apply (proj1 (drv_inv Tq)); lia|].
    assert (D : dma (S t) = dma t) by (rewrite drv_S, (NS t) by lia; reflexivity). unfold ld in *. rewrite D. apply IH. lia. }
  destruct (L w W (le_n w)) as [L0 L1]. pose proof (drv_ld w 0 ltac:(lia) Q) as A0. pose proof (drv_ld w 1 ltac:(lia) Q) as A1. pose proof (drv_sw w) as SW.
  assert (TB : (w <? Tq) = false) by (apply Nat.ltb_ge; exact W). rewrite TB, L0 in SW. cbn [negb] in SW. rewrite SW in A0, A1. cbn [Nat.eqb] in A0, A1.
  split; [|exact A0]. apply (proj1 (proj2 (drv_inv (S w)))). rewrite A0, A1.
  assert (DN : done w = false) by (unfold done, dm_done; rewrite (proj1 (proj2 (drv_inv w))) by (rewrite L0; reflexivity); reflexivity).
  rewrite DN. exact L1.
Qed.
End Driver.

(** The driver takes over at a settled instant [Tq].  Captures then go on without end: the first one starts at [x0] and holds frame [f0], which
    is no later than the first frame that begins after two sys clocks; the
    [N]-th next one holds a frame between [f0 + N] and [f0 + 2 * N], and exactly frame [f0 + N] if there are more than
    [B + 3 * E + 2 * K + 11] sys clocks between frames.  (Of the hypothesis, the condition on software always holds: [drv_polite].) *)
Theorem C144_driver : forall n F lw aw dw align mem ra Tq e X K E B b m words T0, let i := driven n F lw aw dw align mem ra Tq e in
  streaming n F lw aw dw align mem ra 2 i X K E B b m words T0 ->
  T0 <= Tq -> B + 2 * (E + K) + 10 <= occurrences (fun t => cap_sys (i t)) T0 (Tq - T0) ->
  let starts := c_starts n F lw aw dw align mem ra (dma_init 2) i in
  exists x0 f0, Tq < x0 /\ starts x0 = true /\
  (forall v g, 2 <= occurrences (fun t => cap_sys (i t)) Tq (v - Tq) -> occurrences (fun t => cap_pix (i t)) 0 v <= b g -> f0 <= g) /\
  forall N, exists x z c f, x0 <= x /\ starts x = true /\ occurrences starts (S x0) (x - x0) = N /\
  fills n F lw aw dw align mem ra 2 i m words x z c f /\ f0 + N <= f <= f0 + 2 * N /\
  ((forall f, exists u k, occurrences (fun t => cap_pix (i t)) 0 u = b f + k /\ length (collect (word_out F X) (b f) k) = m /\
     forall w, b (f + 1) < occurrences (fun t => cap_pix (i t)) 0 w -> B + 3 * E + 2 * K + 11 < occurrences (fun t => cap_sys (i t)) u (w - u)) ->
   f = f0 + N).
Proof.
  intros n F lw aw dw align mem ra Tq e X K E B b m words T0 i SM TQ SQ starts.
  destruct (C142_continuous_capture n F lw aw dw align mem ra 2 i X K E B b m words T0 SM) as (fr & ID & R).
  assert (QK : forall S, relayed n F lw aw dw align mem ra 2 i m S).
  { intros S. apply quick_relayed. intros t c C L _. exact (drv_quick n F lw aw dw align mem ra Tq e t c C L). }
  destruct (sm_sys _ _ _ _ _ _ _ _ _ _ _ _ _ _ _ _ _ _ SM Tq 1) as (t1 & T1 & O1).
  destruct (first_in (fun t => cap_sys (i t)) Tq (t1 - Tq)) as [G | (w & W1 & QW & NW)].
  { rewrite occ_zero in O1; [lia|exact G]. }
  destruct (drv_begins n F lw aw dw align mem ra Tq e w ltac:(lia) NW QW) as [A1 A2].
  destruct (ID (S w) 0 A1 ltac:(lia) A2) as (x0 & (X1 & X2 & X3) & FST).
  assert (SW : T0 <= S w /\ B + 2 * (E + K) + 10 <= occurrences (fun t => cap_sys (i t)) T0 (S w - T0)).
  { split; [lia|]. replace (S w - T0) with ((Tq - T0) + (S w - Tq)) by lia. rewrite occ_app. lia. }
  assert (SX : T0 <= x0 /\ B + 2 * (E + K) + 10 <= occurrences (fun t => cap_sys (i t)) T0 (x0 - T0)).
  { split; [lia|]. replace (x0 - T0) with ((Tq - T0) + (x0 - Tq)) by lia. rewrite occ_app. lia. }
  exists x0, (fr x0). split; [lia|]. split; [exact X2|]. split; [intros v g OV PV; apply (FST SW v g); [apply (occ_second (fun t => cap_sys (i t)) Tq w v); (lia || assumption)|exact PV]|]. intros N. destruct (R x0 (QK _) SX X2 N) as (x & z & c & I1 & I2 & I3 & I4 & I5 & I6).
  exists x, z, c, (fr x). split; [exact I1|]. split; [exact I2|]. split; [exact I3|]. split; [exact I4|]. split; [exact I5|exact I6].
Qed.
Print Assumptions C144_driver.

(** The environment of PictureFlowProps.v with this driver from instant 60 on. *)
Definition dr_in : nat -> cap_in := driven 3 2 32 8 64 3 fl_mem 0 60 fl_in.
Example dr_streaming : streaming 3 2 32 8 64 3 fl_mem 0 2 dr_in fl_pk 2 1 6 fl_b 1 fl_words 32.
Proof.
  destruct fl_streaming as [A1 A2 A3 A4 A5 A6 A7 A8 A9 A10 A11 A12 A13 A14 A15 A16].
  constructor; try assumption.
  - intros u t UT H. change (occurrences (fun _ => true) u (t - u) <= 1). rewrite fl_occ.
    destruct (Nat.le_gt_cases (t - u) 1) as [L|L]; [exact L|exfalso].
    assert (G : forall d, d <= 1 -> (u + d) mod 4 = 1). { intros d D. specialize (H (u + d) ltac:(lia) eq_refl). apply andb_prop in H as [H _]. apply Nat.eqb_eq in H. exact H. }
    pose proof (G 0 ltac:(lia)) as G0. pose proof (G 1 ltac:(lia)) as G1.
    pose proof (Nat.div_mod (u + 0) 4 ltac:(lia)). pose proof (Nat.div_mod (u + 1) 4 ltac:(lia)). lia.
  - intros t j. apply drv_polite.
Qed.
(** Every frame from the second one on is put into one of the two slots. *)
Example ex_driver : forall f, 1 <= f -> exists x z c, 60 < x /\ fills 3 2 32 8 64 3 fl_mem 0 2 dr_in 1 fl_words x z c f.
Proof.
  destruct (C144_driver 3 2 32 8 64 3 fl_mem 0 60 fl_in fl_pk 2 1 6 fl_b 1 fl_words 32 dr_streaming) as (x0 & f0 & X0 & _ & F0 & H).
  - lia.
  - change (6 + 2 * (1 + 2) + 10 <= occurrences (fun _ => true) 32 (60 - 32)). rewrite fl_occ. lia.
  - assert (FL : f0 <= 1).
    { apply (F0 62 1); [change (2 <= occurrences (fun _ => true) 60 (62 - 60))|change (occurrences (fun _ => true) 0 62 <= fl_b 1)]; rewrite fl_occ; unfold fl_b; lia. }
    intros f FF. destruct (H (f - f0)) as (x & z & c & g & X1 & _ & _ & FI & _ & G). exists x, z, c.
    split; [lia|]. rewrite (G fl_gap) in FI. replace (f0 + (f - f0)) with f in FI by lia. exact FI.
Qed.
