(** C147: any number of slots and any software that loads free slots at once. *)
From Coq Require Import ZArith List Bool Lia Arith.
From Verif Require Import Hdl Trace CdcProofs AnalysisModel FrameProofs FrameProps InDmaModel InDmaProofs InDmaProps FifoModel FifoProofs FifoProps
  CaptureModel CaptureProofs CaptureProps CaptureRateProofs CaptureLiveProofs CaptureLiveProps FairProofs FairProps PictureOrderProps PictureSkipProps PictureFlowProps DriverProps.
Import ListNotations.
Open Scope nat_scope.

(** From instant [Tq] on the software access of every sys clock in which a slot is not loaded loads such a slot, whichever; before it writes no
    status register. *)
Record eager (n : Z) (F : nat) (lw aw dw align : Z) (mem : list (bool * list Z)) (ra : Z) (ns : nat) (i : nat -> cap_in) (Tq : nat) : Prop := {
  eg_before : forall t j v, t < Tq -> cap_sw (i t) <> SwStatus j v;
  eg_loads : forall t j, Tq <= t -> cap_sys (i t) = true -> j < ns -> Z.odd (slot_status n F lw aw dw align mem ra ns i t j) = false ->
    exists k, k < ns /\ Z.odd (slot_status n F lw aw dw align mem ra ns i t k) = false /\ cap_sw (i t) = SwStatus k 1
}.

Section Eager.
Variables (n : Z) (F : nat) (lw aw dw align : Z) (mem : list (bool * list Z)) (ra : Z) (ns : nat) (i : nat -> cap_in) (Tq : nat).
Hypothesis NS : 2 <= ns.
Hypothesis EG : eager n F lw aw dw align mem ra ns i Tq.
Let st t := cap_run n F lw aw dw align mem ra (dma_init ns) i t.
Let dma t := cap_dma (st t).
Let ld j t := Z.odd (sl_status (nth j (dm_slots (dma t)) slot0)).
Let done t := dm_done (dma t) (c_din n F lw aw dw align mem ra (dma_init ns) i t).
Hypothesis POL : forall t j, cap_sys (i t) = true -> ld j t = true -> match cap_sw (i t) with SwNone => True | SwStatus k _ => k <> j | SwAddr k _ => k <> j end.

Lemma eg_S : forall t, dma (S t) = if cap_sys (i t) then dma_step aw dw align (dma t) (c_din n F lw aw dw align mem ra (dma_init ns) i t) else dma t.
Proof. intros t. apply c_dma_step. Qed.
Lemma eg_len : forall t, length (dm_slots (dma t)) = ns.
Proof. intros t. apply slots_count. Qed.
Lemma eg_cur : forall t, dm_cur (dma t) < ns.
Proof. intros t. apply cur_range. lia. Qed.
(** A loaded slot stays loaded unless its capture ends. *)
Lemma eg_keep : forall t j, j < ns -> ld j t = true -> done t = false \/ dm_cur (dma t) <> j -> ld j (S t) = true.
Proof.
  intros t j J L H. unfold ld. rewrite eg_S. destruct (cap_sys (i t)) eqn:Q; [|exact L].
  unfold dma_step; cbn [dm_slots]. rewrite nth_slots_step, eg_len. fold (done t). rewrite (proj2 (Nat.ltb_lt j ns) J), Nat.add_0_l. unfold slot_step.
  change (dmi_sw (c_din n F lw aw dw align mem ra (dma_init ns) i t)) with (cap_sw (i t)). pose proof (POL t j Q L) as P.
  assert (ND : done t && Nat.eqb (dm_cur (dma t)) j = false) by (destruct H as [-> | H]; [reflexivity|]; apply Nat.eqb_neq in H; rewrite H; apply andb_false_r).
  rewrite ND. destruct (cap_sw (i t)) as [|k v|k v]; [exact L| |]; apply Nat.eqb_neq in P; rewrite P; exact L.
Qed.
Lemma eg_load : forall t k, cap_sys (i t) = true -> k < ns -> cap_sw (i t) = SwStatus k 1 -> ld k (S t) = true.
Proof.
  intros t k Q K W. unfold ld. rewrite eg_S, Q. unfold dma_step; cbn [dm_slots]. rewrite nth_slots_step, eg_len. rewrite (proj2 (Nat.ltb_lt k ns) K), Nat.add_0_l. unfold slot_step.
  change (dmi_sw (c_din n F lw aw dw align mem ra (dma_init ns) i t)) with (cap_sw (i t)). rewrite W, Nat.eqb_refl. reflexivity.
Qed.
Lemma eg_idle : forall t, dm_fsm (dma t) = WAIT_SOF -> done t = false.
Proof. intros t H. unfold done, dm_done. rewrite H. reflexivity. Qed.
(** While a capture goes on two slots are loaded. *)
Definition eg_two (t : nat) : Prop := exists a b, a < ns /\ b < ns /\ a <> b /\ ld a t = true /\ ld b t = true.
Lemma eg_free_or : forall t, (exists j, j < ns /\ ld j t = false) \/ forall j, j < ns -> ld j t = true.
Proof.
  intros t. assert (G : forall m, (exists j, j < m /\ ld j t = false) \/ forall j, j < m -> ld j t = true).
  { induction m as [|m [(j & A & B)|IH]]; [right; intros; lia|left; exists j; split; [lia|exact B]|].
    destruct (ld m t) eqn:E; [right|left; exists m; split; [lia|exact E]]. intros j J. destruct (Nat.eq_dec j m) as [->|]; [exact E|apply IH; lia]. }
  apply G.
Qed.
Lemma eg_inv : forall t, Tq <= t -> dm_fsm (dma t) = WAIT_SOF \/ eg_two t.
Proof.
  intros t T. induction T as [|t T IH].
  { left. apply (proj1 (idle_at_first n F lw aw dw align mem ra ns i Tq (eg_before _ _ _ _ _ _ _ _ _ _ _ EG))). }
  destruct (cap_sys (i t)) eqn:Q.
  2:{ assert (D : dma (S t) = dma t) by (rewrite eg_S, Q; reflexivity). unfold eg_two, ld in *. rewrite D. exact IH. }
  destruct (dm_fsm (dma t)) eqn:FS.
  - pose proof (eg_idle t FS) as ND. destruct (dm_start (dma t) (c_din n F lw aw dw align mem ra (dma_init ns) i t)) eqn:ST.
    + right. assert (LC : ld (dm_cur (dma t)) t = true).
      { unfold dm_start in ST. rewrite FS in ST. apply andb_prop in ST as [ST _]. apply andb_prop in ST as [ST _]. unfold dm_av, dm_slot, sl_loaded in ST.
        rewrite eg_len in ST. pose proof (eg_cur t). replace (Nat.min (dm_cur (dma t)) (ns - 1)) with (dm_cur (dma t)) in ST by lia. rewrite Z.bit0_odd in ST. exact ST. }
      destruct (eg_free_or t) as [(j & J & LJ)|ALL].
      * destruct (eg_loads _ _ _ _ _ _ _ _ _ _ _ EG t j T Q J LJ) as (k & K & LK & WK). exists (dm_cur (dma t)), k.
        split; [apply eg_cur|]. split; [exact K|]. split; [intros X; rewrite X in LC; change (ld k t = false) in LK; congruence|].
        split; [apply eg_keep; [apply eg_cur|exact LC|left; exact ND]|apply eg_load; assumption].
      * exists 0, 1. split; [lia|]. split; [lia|]. split; [lia|]. split; apply eg_keep; try lia; try (apply ALL; lia); left; exact ND.
    + left. rewrite eg_S, Q. unfold dma_step; cbn [dm_fsm]. rewrite FS, ST. reflexivity.
  - destruct IH as [IH | (a & b & A & B & AB & LA & LB)]; [congruence|]. right. exists a, b. split; [exact A|]. split; [exact B|]. split; [exact AB|].
    assert (ND : done t = false) by (unfold done, dm_done; rewrite FS; reflexivity). split; apply eg_keep; auto.
  - destruct IH as [IH | (a & b & A & B & AB & LA & LB)]; [congruence|]. destruct (done t) eqn:D.
    + left. rewrite eg_S, Q. unfold dma_step; cbn [dm_fsm]. rewrite FS. fold (done t). rewrite D. reflexivity.
    + right. exists a, b. split; [exact A|]. split; [exact B|]. split; [exact AB|]. split; apply eg_keep; auto.
Qed.
Lemma eg_quick : forall t c, Tq <= t -> c < ns -> ld c t = true -> exists c', c' < ns /\ ld c' (S t) = true.
Proof.
  intros t c T C L. destruct (done t) eqn:D; [|exists c; split; [exact C|apply eg_keep; auto]].
  destruct (eg_inv t T) as [W | (a & b & A & B & AB & LA & LB)]; [rewrite (eg_idle t W) in D; discriminate|].
  destruct (Nat.eq_dec (dm_cur (dma t)) a) as [E|E]; [exists b|exists a]; (split; [assumption|apply eg_keep; [assumption|assumption|right; lia]]).
Qed.
(** The first sys clock from [Tq] on loads a slot while the DMA is idle. *)
Lemma eg_begins : forall w, Tq <= w -> (forall t, Tq <= t < w -> cap_sys (i t) = false) -> cap_sys (i w) = true ->
  dm_fsm (dma (S w)) = WAIT_SOF /\ exists c, c < ns /\ ld c (S w) = true.
Proof.
  intros w W NW QW.
  destruct (idle_at_first n F lw aw dw align mem ra ns i Tq (eg_before _ _ _ _ _ _ _ _ _ _ _ EG)) as [ID ZS].
  assert (D : forall t, Tq <= t -> t <= w -> dma t = dma Tq).
  { intros t T. induction T as [|t T IH]; intros L; [reflexivity|]. rewrite eg_S, (NW t) by lia. apply IH. lia. }
  assert (Z0 : forall j, ld j w = false) by (intros j; unfold ld; rewrite (D w W (le_n w)); specialize (ZS j); unfold slot_status in ZS; fold (st Tq) in ZS; unfold dma; rewrite ZS; reflexivity).
  assert (IW : dm_fsm (dma w) = WAIT_SOF) by (rewrite (D w W (le_n w)); exact ID).
  split.
  - rewrite eg_S, QW. unfold dma_step; cbn [dm_fsm]. rewrite IW. unfold dm_start. rewrite IW. unfold dm_av, dm_slot, sl_loaded. rewrite Z.bit0_odd. unfold ld in Z0. rewrite Z0. reflexivity.
  - destruct (eg_loads _ _ _ _ _ _ _ _ _ _ _ EG w 0 W QW ltac:(lia) (Z0 0)) as (k & K & _ & WK). exists k. split; [exact K|apply eg_load; assumption].
Qed.
End Eager.

(** C144 for any number of slots from two on and any choice of the slot to load.  [streaming] includes that software never writes a register
    of a loaded slot. *)
Theorem C147_eager_software : forall n F lw aw dw align mem ra ns i X K E B b m words T0 Tq, 2 <= ns ->
  streaming n F lw aw dw align mem ra ns i X K E B b m words T0 -> eager n F lw aw dw align mem ra ns i Tq ->
  T0 <= Tq -> B + 2 * (E + K) + 10 <= occurrences (fun t => cap_sys (i t)) T0 (Tq - T0) ->
  let starts := c_starts n F lw aw dw align mem ra (dma_init ns) i in
  exists x0 f0, Tq < x0 /\ starts x0 = true /\ (forall t, Tq <= t < x0 -> starts t = false) /\
  (forall v g, 2 <= occurrences (fun t => cap_sys (i t)) Tq (v - Tq) -> occurrences (fun t => cap_pix (i t)) 0 v <= b g -> f0 <= g) /\
  forall N, exists x z c f, x0 <= x /\ starts x = true /\ occurrences starts (S x0) (x - x0) = N /\
  fills n F lw aw dw align mem ra ns i m words x z c f /\ f0 + N <= f <= f0 + 2 * N /\
  ((forall f, exists u k, occurrences (fun t => cap_pix (i t)) 0 u = b f + k /\ length (collect (word_out F X) (b f) k) = m /\
     forall w, b (f + 1) < occurrences (fun t => cap_pix (i t)) 0 w -> B + 3 * E + 2 * K + 11 < occurrences (fun t => cap_sys (i t)) u (w - u)) ->
   f = f0 + N).
Proof.
  intros n F lw aw dw align mem ra ns i X K E B b m words T0 Tq NS SM EG TQ SQ starts.
  pose proof (sm_polite _ _ _ _ _ _ _ _ _ _ _ _ _ _ _ _ _ _ SM) as POL.
  destruct (C142_continuous_capture n F lw aw dw align mem ra ns i X K E B b m words T0 SM) as (fr & ID & R).
  assert (QK : forall S, relayed n F lw aw dw align mem ra ns i m S).
  { intros S. apply quick_relayed. intros t c C L _. destruct (Nat.le_gt_cases Tq t) as [T|T].
    - exact (eg_quick n F lw aw dw align mem ra ns i Tq NS EG POL t c T C L).
    - destruct (idle_at_first n F lw aw dw align mem ra ns i t) as [_ Z0]; [intros u j v U; apply (eg_before _ _ _ _ _ _ _ _ _ _ _ EG); lia|].
      rewrite Z0 in L. discriminate. }
  destruct (sm_sys _ _ _ _ _ _ _ _ _ _ _ _ _ _ _ _ _ _ SM Tq 1) as (t1 & T1 & O1).
  destruct (first_in (fun t => cap_sys (i t)) Tq (t1 - Tq)) as [G | (w & W1 & QW & NW)].
  { rewrite occ_zero in O1; [lia|exact G]. }
  destruct (eg_begins n F lw aw dw align mem ra ns i Tq NS EG w ltac:(lia) NW QW) as [A1 (c0 & C0 & A2)].
  destruct (ID (S w) c0 A1 C0 A2) as (x0 & (X1 & X2 & X3) & FST).
  assert (SW : T0 <= S w /\ B + 2 * (E + K) + 10 <= occurrences (fun t => cap_sys (i t)) T0 (S w - T0)).
  { split; [lia|]. replace (S w - T0) with ((Tq - T0) + (S w - Tq)) by lia. rewrite occ_app. lia. }
  assert (SX : T0 <= x0 /\ B + 2 * (E + K) + 10 <= occurrences (fun t => cap_sys (i t)) T0 (x0 - T0)).
  { split; [lia|]. replace (x0 - T0) with ((Tq - T0) + (x0 - Tq)) by lia. rewrite occ_app. lia. }
  exists x0, (fr x0). split; [lia|]. split; [exact X2|]. split.
  { intros t T. destruct (Nat.le_gt_cases (S w) t) as [L|L]; [apply X3; lia|]. destruct (starts t) eqn:ST; [exfalso|reflexivity].
    unfold starts, c_starts in ST. apply andb_prop in ST as [SY ST]. unfold c_sys in SY. destruct (Nat.eq_dec t w) as [->|]; [|rewrite NW in SY by lia; discriminate].
    pose proof (c_dma_step n F lw aw dw align mem ra (dma_init ns) i w) as D. unfold c_sys in D. rewrite QW in D. rewrite D in A1.
    unfold dma_step in A1; cbn [dm_fsm] in A1. unfold dm_start in ST, A1. destruct (dm_fsm (cap_dma (cap_run n F lw aw dw align mem ra (dma_init ns) i w))); [|discriminate|discriminate].
    rewrite ST in A1. discriminate. }
  split; [intros v g OV PV; apply (FST SW v g); [apply (occ_second (fun t => cap_sys (i t)) Tq w v); (lia || assumption)|exact PV]|]. 
  intros N. destruct (R x0 (QK _) SX X2 N) as (x & z & c & I1 & I2 & I3 & I4 & I5 & I6).
  exists x, z, c, (fr x). split; [exact I1|]. split; [exact I2|]. split; [exact I3|]. split; [exact I4|]. split; [exact I5|exact I6].
Qed.
Print Assumptions C147_eager_software.

(** The driver of C144 is one such software. *)
Example drv_eager : forall n F lw aw dw align mem ra Tq e, eager n F lw aw dw align mem ra 2 (driven n F lw aw dw align mem ra Tq e) Tq.
Proof.
  intros n F lw aw dw align mem ra Tq e. constructor.
  - intros t j v T W. pose proof (drv_sw n F lw aw dw align mem ra Tq e t) as D. rewrite (proj2 (Nat.ltb_lt t Tq) T) in D. congruence.
  - intros t j T _ J L. pose proof (drv_sw n F lw aw dw align mem ra Tq e t) as D. cbv zeta in D. set (i := driven n F lw aw dw align mem ra Tq e) in *.
    change (cap_sw (i t) = if t <? Tq then SwNone else if negb (Z.odd (slot_status n F lw aw dw align mem ra 2 i t 0)) then SwStatus 0 1
      else if negb (Z.odd (slot_status n F lw aw dw align mem ra 2 i t 1)) then SwStatus 1 1 else SwNone) in D.
    rewrite (proj2 (Nat.ltb_ge t Tq) T) in D. destruct (Z.odd (slot_status n F lw aw dw align mem ra 2 i t 0)) eqn:L0; cbn [negb] in D.
    + destruct (Z.odd (slot_status n F lw aw dw align mem ra 2 i t 1)) eqn:L1; cbn [negb] in D.
      * destruct j as [|[|j]]; [congruence|congruence|lia].
      * exists 1. split; [lia|]. split; [exact L1|exact D].
    + exists 0. split; [lia|]. split; [exact L0|exact D].
Qed.
Example ex_eager_runs : forall f, 1 <= f -> exists x z c, 60 < x /\ fills 3 2 32 8 64 3 fl_mem 0 2 dr_in 1 fl_words x z c f.
Proof.
  destruct (C147_eager_software 3 2 32 8 64 3 fl_mem 0 2 dr_in fl_pk 2 1 6 fl_b 1 fl_words 32 60 ltac:(lia) dr_streaming (drv_eager _ _ _ _ _ _ _ _ _ _)) as (x0 & f0 & X0 & _ & _ & F0 & H).
  - lia.
  - change (6 + 2 * (1 + 2) + 10 <= occurrences (fun _ => true) 32 (60 - 32)). rewrite fl_occ. lia.
  - assert (FL : f0 <= 1).
    { apply (F0 62 1); [change (2 <= occurrences (fun _ => true) 60 (62 - 60))|change (occurrences (fun _ => true) 0 62 <= fl_b 1)]; rewrite fl_occ; unfold fl_b; lia. }
    intros f FF. destruct (H (f - f0)) as (x & z & c & g & X1 & _ & _ & FI & _ & G). exists x, z, c.
    split; [lia|]. rewrite (G fl_gap) in FI. replace (f0 + (f - f0)) with f in FI by lia. exact FI.
Qed.
