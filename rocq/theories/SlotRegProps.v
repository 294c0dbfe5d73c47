(** C121: the address register of a slot, from software's writes to the place of the frame in memory. *)
From Coq Require Import ZArith List Bool Lia Arith.
From Verif Require Import Hdl Trace ChanSyncModel InDmaModel InDmaProofs InDmaProps FifoModel FrameProofs CaptureModel CaptureProofs CaptureProps CaptureLiveProofs CaptureLiveProps
  FairProofs FairProps.
Import ListNotations.
Open Scope nat_scope.

Lemma slice_low : forall p l w v, (0 <= p)%Z -> (0 <= l)%Z -> (p + l <= w)%Z -> slice p l (trunc w v) = slice p l v.
Proof.
  intros p l w v P L W. unfold slice, trunc. apply Z.bits_inj'. intros k K.
  destruct (Z.lt_ge_cases k l) as [H|H].
  - rewrite !Z.mod_pow2_bits_low by lia. rewrite !Z.div_pow2_bits by lia. apply Z.mod_pow2_bits_low. lia.
  - rewrite !Z.mod_pow2_bits_high by lia. reflexivity.
Qed.

Section Regs.
Variables (n : Z) (F : nat) (lw aw dw align : Z) (mem : list (bool * list Z)) (ra : Z) (ns : nat) (i : nat -> cap_in).
Let st (t : nat) : cap_st := cap_run n F lw aw dw align mem ra (dma_init ns) i t.
Let stat := slot_status n F lw aw dw align mem ra ns i.
Let addr := slot_address n F lw aw dw align mem ra ns i.
(** Software never writes the status of a slot that waits for a frame or is being filled. *)
Hypothesis Hkeep : forall t j v, cap_sys (i t) = true -> cap_sw (i t) = SwStatus j v -> Z.odd (stat t j) = false.

Lemma st_dma : forall t, cap_dma (st (S t)) = if cap_sys (i t) then dma_step aw dw align (cap_dma (st t)) (cap_dma_in lw (st t) (i t)) else cap_dma (st t).
Proof. reflexivity. Qed.
Lemma st_len : forall t, length (dm_slots (cap_dma (st t))) = ns.
Proof. exact (slots_count n F lw aw dw align mem ra ns i). Qed.
Lemma loaded_odd : forall t j, sl_loaded (nth j (dm_slots (cap_dma (st t))) slot0) = Z.odd (stat t j).
Proof. intros t j. unfold stat, slot_status, sl_loaded. fold (st t). apply Z.bit0_odd. Qed.

(** While a frame is being written its slot is loaded. *)
Lemma busy_loaded : 1 <= ns -> forall t, dm_fsm (cap_dma (st t)) <> WAIT_SOF -> Z.odd (stat t (dm_cur (cap_dma (st t)))) = true.
Proof.
  intros NS t. induction t as [|t IH]; [intros H; exfalso; apply H; reflexivity|].
  intros H. assert (CR : dm_cur (cap_dma (st t)) < ns) by exact (cur_range n F lw aw dw align mem ra ns i NS t).
  rewrite <- loaded_odd in IH |- *. rewrite st_dma in H |- *. destruct (cap_sys (i t)) eqn:SY; [|apply IH, H].
  set (s := cap_dma (st t)) in *. set (x := cap_dma_in lw (st t) (i t)) in *.
  assert (SL : dm_slot s = nth (dm_cur s) (dm_slots s) slot0) by (unfold dm_slot, s; rewrite st_len; rewrite Nat.min_l by (clear - CR; unfold s in CR; lia); reflexivity).
  assert (AV : dm_av s = true /\ dm_done s x = false).
  { unfold dma_step in H; cbn [dm_fsm] in H. unfold dm_done in *. destruct (dm_fsm s) eqn:FS.
    - split; [|reflexivity]. unfold dm_start in H. rewrite FS in H. destruct (dm_av s); [reflexivity|exfalso; apply H; reflexivity].
    - split; [|reflexivity]. unfold dm_av. rewrite SL. apply IH. discriminate.
    - destruct (negb (dmi_wbusy x)); [exfalso; apply H; reflexivity|]. split; [|reflexivity]. unfold dm_av. rewrite SL. apply IH. discriminate. }
  destruct AV as [AV DN]. unfold dma_step; cbn [dm_slots dm_cur]. rewrite DN, AV. cbn [negb orb].
  rewrite slots_nth by (unfold s; rewrite st_len; exact CR). cbn [andb]. rewrite Nat.add_0_l.
  unfold dm_av in AV. rewrite SL in AV. unfold slot_step. change (dmi_sw x) with (cap_sw (i t)).
  destruct (cap_sw (i t)) as [|k v|k v] eqn:SW; [exact AV| |].
  - destruct (Nat.eqb_spec k (dm_cur s)) as [->|]; [|exact AV]. exfalso. specialize (Hkeep t _ v SY SW). rewrite <- loaded_odd in Hkeep. fold s in Hkeep. congruence.
  - destruct (Nat.eqb k (dm_cur s)); [|exact AV]. exact AV.
Qed.

(** Bits [p .. p+l-1] of the address register of slot [c]. *)
Lemma field_kept : forall c p l v t1, c < ns -> (0 <= p)%Z -> (0 <= l)%Z -> (p + l <= aw + align)%Z ->
  cap_sys (i t1) = true -> cap_sw (i t1) = SwAddr c v ->
  forall w, t1 < w -> (forall t, t1 < t < w -> Z.odd (stat t c) = false) ->
  (forall t v', t1 < t < w -> cap_sys (i t) = true -> cap_sw (i t) = SwAddr c v' -> slice p l v' = slice p l (addr t c)) ->
  slice p l (addr w c) = slice p l v.
Proof.
  intros c p l v t1 C P L W S1 W1 w TW EV RW. induction TW as [|w TW IH].
  - unfold addr, slot_address. change (cap_run n F lw aw dw align mem ra (dma_init ns) i (S t1)) with (st (S t1)). rewrite st_dma, S1. unfold dma_step; cbn [dm_slots].
    rewrite slots_nth by (rewrite st_len; exact C). rewrite Nat.add_0_l. unfold slot_step. change (dmi_sw (cap_dma_in lw (st t1) (i t1))) with (cap_sw (i t1)). rewrite W1, Nat.eqb_refl. cbn [sl_addr].
    apply slice_low; assumption.
  - rewrite <- IH by (intros; (apply EV; lia) || (eapply RW; eassumption || lia)). 
    unfold addr at 1, slot_address. change (cap_run n F lw aw dw align mem ra (dma_init ns) i (S w)) with (st (S w)). rewrite st_dma.
    destruct (cap_sys (i w)) eqn:SY; [|reflexivity]. unfold dma_step; cbn [dm_slots].
    rewrite slots_nth by (rewrite st_len; exact C). rewrite Nat.add_0_l.
    assert (DN : dm_done (cap_dma (st w)) (cap_dma_in lw (st w) (i w)) && Nat.eqb (dm_cur (cap_dma (st w))) c = false).
    { destruct (Nat.eqb_spec (dm_cur (cap_dma (st w))) c) as [CC|]; [|apply andb_false_r]. rewrite andb_true_r. unfold dm_done.
      destruct (dm_fsm (cap_dma (st w))) eqn:FS; [reflexivity..|]. exfalso.
      assert (B : Z.odd (stat w c) = true) by (rewrite <- CC; apply busy_loaded; [lia|congruence]). rewrite EV in B by lia. discriminate. }
    rewrite DN. unfold slot_step. change (dmi_sw (cap_dma_in lw (st w) (i w))) with (cap_sw (i w)).
    destruct (cap_sw (i w)) as [|k u|k u] eqn:SW; [reflexivity| |].
    + destruct (Nat.eqb k c); reflexivity.
    + destruct (Nat.eqb_spec k c) as [->|]; [|reflexivity]. cbn [sl_addr]. rewrite slice_low by assumption. apply (RW w u); [lia|exact SY|exact SW].
Qed.
End Regs.

(** Software writes the address register of slot [c] in one or more accesses.  While the slot is not loaded, every
    field of the register keeps the value last written to it, whatever is captured into other slots meanwhile. *)
Theorem C121_address_register : forall n F lw aw dw align mem ra ns (i : nat -> cap_in),
  let status := slot_status n F lw aw dw align mem ra ns i in
  let address := slot_address n F lw aw dw align mem ra ns i in
  (forall t j v, cap_sys (i t) = true -> cap_sw (i t) = SwStatus j v -> Z.odd (status t j) = false) ->
  forall c, c < ns -> forall p l, (0 <= p)%Z -> (0 <= l)%Z -> (p + l <= aw + align)%Z ->
  forall t1 v, cap_sys (i t1) = true -> cap_sw (i t1) = SwAddr c v ->
  forall w, t1 < w -> (forall t, t1 < t < w -> Z.odd (status t c) = false) ->
  (forall t v', t1 < t < w -> cap_sys (i t) = true -> cap_sw (i t) = SwAddr c v' -> slice p l v' = slice p l (address t c)) ->
  slice p l (address w c) = slice p l v.
Proof.
  intros n F lw aw dw align mem ra ns i status address HK c C p l P L W t1 v S1 W1 w TW EV RW.
  exact (field_kept n F lw aw dw align mem ra ns i HK c p l v t1 C P L W S1 W1 w TW EV RW).
Qed.
Print Assumptions C121_address_register.

(** Written with one value and left alone, it gives the word address that all capture theorems (C24, C79, C95, C96, C98, C116, C119, C120) start from. *)
Theorem C121_word_address : forall n F lw aw dw align mem ra ns (i : nat -> cap_in), (0 <= aw)%Z -> (0 <= align)%Z ->
  let status := slot_status n F lw aw dw align mem ra ns i in
  let address := slot_address n F lw aw dw align mem ra ns i in
  (forall t j v, cap_sys (i t) = true -> cap_sw (i t) = SwStatus j v -> Z.odd (status t j) = false) ->
  forall c, c < ns -> forall t1 v, cap_sys (i t1) = true -> cap_sw (i t1) = SwAddr c v ->
  forall w, t1 < w -> (forall t, t1 < t < w -> Z.odd (status t c) = false) ->
  (forall t v', t1 < t < w -> cap_sys (i t) = true -> cap_sw (i t) <> SwAddr c v') ->
  (address w c mod 2 ^ (aw + align) = v mod 2 ^ (aw + align) /\ word_address aw align (address w c) = (v / 2 ^ align) mod 2 ^ aw)%Z.
Proof.
  intros n F lw aw dw align mem ra ns i Haw Hal status address HK c C t1 v S1 W1 w TW EV RW.
  assert (X : forall p l, (0 <= p)%Z -> (0 <= l)%Z -> (p + l <= aw + align)%Z -> slice p l (address w c) = slice p l v).
  { intros p l P L W. apply (field_kept n F lw aw dw align mem ra ns i HK c p l v t1 C P L W S1 W1 w TW EV).
    intros t v' T SY SW. exfalso. exact (RW t v' T SY SW). }
  split.
  - specialize (X 0%Z (aw + align)%Z ltac:(lia) ltac:(lia) ltac:(lia)). unfold slice in X. rewrite !Z.pow_0_r, !Z.div_1_r in X. exact X.
  - unfold word_address. apply (X align aw); lia.
Qed.
Print Assumptions C121_word_address.

(** Continuous operation (C98) with the addresses that software has programmed. *)
Theorem C121_programmed_buffer : forall n F lw aw dw align mem ra ns i X K E B b m words T0,
  streaming n F lw aw dw align mem ra ns i X K E B b m words T0 -> (0 <= align)%Z ->
  forall w c v, c < 2 -> c < ns -> T0 <= w -> B + 2 * (E + K) + 10 <= occurrences (fun t => cap_sys (i t)) T0 (w - T0) ->
  cap_sys (i w) = true -> cap_sw (i w) = SwStatus c v -> Z.odd v = true ->
  forall t1 addr, t1 < w -> cap_sys (i t1) = true -> cap_sw (i t1) = SwAddr c addr ->
  (forall t, t1 < t < w -> Z.odd (slot_status n F lw aw dw align mem ra ns i t c) = false) ->
  (forall t v', t1 < t < w -> cap_sys (i t) = true -> cap_sw (i t) <> SwAddr c v') ->
  let a := ((addr / 2 ^ align) mod 2 ^ aw)%Z in
  exists x z, w < x < z /\ (forall t, w < t < z -> Z.odd (slot_status n F lw aw dw align mem ra ns i t c) = true) /\
  slot_status n F lw aw dw align mem ra ns i z c = 2%Z /\
  forall M, let M' := after M (collect (c_write n F lw aw dw align mem ra (dma_init ns) i) x (z - x)) in
  exists f, (forall j, j < m -> M' ((a + Z.of_nat j) mod 2 ^ aw)%Z = (joined lw (words f j) mod 2 ^ dw)%Z) /\
  (forall v, (forall j, j < m -> v <> ((a + Z.of_nat j) mod 2 ^ aw)%Z) -> M' v = M v).
Proof.
  intros n F lw aw dw align mem ra ns i X K E B b m words T0 ST Hal w c v C2 C TW HW SY SW V t1 addr TL S1 W1 EV RW a.
  pose proof (C98_slot_served n F lw aw dw align mem ra ns i X K E B b m words T0 ST w c v C2 C TW HW SY SW V) as G. cbv zeta in G.
  destruct (C121_word_address n F lw aw dw align mem ra ns i ltac:(destruct ST; lia) Hal) with (c := c) (t1 := t1) (v := addr) (w := w) as [_ A]; try assumption.
  { intros t j u T U. destruct (Z.odd (slot_status n F lw aw dw align mem ra ns i t j)) eqn:O; [|reflexivity]. exfalso.
    pose proof (sm_polite _ _ _ _ _ _ _ _ _ _ _ _ _ _ _ _ _ _ ST t j T O) as Q. rewrite U in Q. apply Q. reflexivity. }
  rewrite A in G. exact G.
Qed.
Print Assumptions C121_programmed_buffer.

(** Slot 0 of the run of C98: its register is written with byte address 64 at instant 98, it is loaded at instant 100,
    and a frame arrives at word address 8. *)
Example C121_case : exists x z, 100 < x < z /\ slot_status 4 2 32 8 64 3 (repeat fe_word0 16) 0 3 ex_starve_in z 0 = 2%Z /\
  exists f, after (fun _ => 0%Z) (collect (c_write 4 2 32 8 64 3 (repeat fe_word0 16) 0 (dma_init 3) ex_starve_in) x (z - x)) 8%Z = (joined 32 (ex_words f 0) mod 2 ^ 64)%Z.
Proof.
  destruct (C121_programmed_buffer _ _ _ _ _ _ _ _ _ _ _ _ _ _ _ _ _ _ ex_starve_streaming ltac:(lia) 100 0 1%Z) with (t1 := 98) (addr := 64%Z)
    as (x & z & XZ & _ & Q & G); try lia; try reflexivity.
  - change (fun t => cap_sys (ex_starve_in t)) with (fun t => cap_sys (ex_live_in t)). rewrite ex_live_sys. lia.
  - intros t T. replace t with 99 by lia. vm_compute. reflexivity.
  - intros t v T _. replace t with 99 by lia. vm_compute. discriminate.
  - exists x, z. split; [exact XZ|]. split; [exact Q|]. destruct (G (fun _ => 0%Z)) as [f [A _]]. exists f. apply (A 0). lia.
Qed.

(** A register written in two bus accesses, the upper part first (an eleven-bit register: three upper and eight lower bits). *)
Definition ex_parts_in (t : nat) : cap_in :=
  {| cap_pix := Nat.eqb (t mod 4) 0; cap_sys := true; cap_pk := ex_cap_pk (t / 4); cap_mready := Nat.odd t;
     cap_wbusy := false; cap_size := 16;
     cap_sw := if Nat.eqb t 4 then SwAddr 0 1280 else if Nat.eqb t 6 then SwAddr 0 1352 else SwNone; cap_mp := 1; cap_mc := 0 |}%Z.
Example C121_parts : slice 8 3 (slot_address 4 2 32 8 64 3 (repeat fe_word0 16) 0 2 ex_parts_in 9 0) = 5%Z /\
  slice 0 8 (slot_address 4 2 32 8 64 3 (repeat fe_word0 16) 0 2 ex_parts_in 9 0) = 72%Z.
Proof.
  assert (HK : forall t j v, cap_sys (ex_parts_in t) = true -> cap_sw (ex_parts_in t) = SwStatus j v -> Z.odd (slot_status 4 2 32 8 64 3 (repeat fe_word0 16) 0 2 ex_parts_in t j) = false).
  { intros t j v _ Q. cbn [cap_sw ex_parts_in] in Q. destruct (Nat.eqb t 4); [discriminate|]. destruct (Nat.eqb t 6); discriminate. }
  assert (ID : forall t, t < 9 -> slot_status 4 2 32 8 64 3 (repeat fe_word0 16) 0 2 ex_parts_in t 0 = 0%Z).
  { intros t _. apply (idle_at_first 4 2 32 8 64 3 (repeat fe_word0 16) 0 2 ex_parts_in t). intros u j v _ Q. cbn [cap_sw ex_parts_in] in Q. destruct (Nat.eqb u 4); [discriminate|]. destruct (Nat.eqb u 6); discriminate. }
  split.
  - apply (C121_address_register 4 2 32 8 64 3 (repeat fe_word0 16) 0 2 ex_parts_in HK 0 ltac:(lia) 8 3 ltac:(lia) ltac:(lia) ltac:(lia) 4 1280%Z eq_refl eq_refl 9 ltac:(lia)).
    + intros t T. rewrite ID by lia. reflexivity.
    + intros t v T _ Q. assert (t = 6) as -> by (cbn [cap_sw ex_parts_in] in Q; destruct (Nat.eqb_spec t 4); [lia|]; destruct (Nat.eqb_spec t 6); [assumption|discriminate]).
      cbn in Q. injection Q as <-. vm_compute. reflexivity.
  - apply (C121_address_register 4 2 32 8 64 3 (repeat fe_word0 16) 0 2 ex_parts_in HK 0 ltac:(lia) 0 8 ltac:(lia) ltac:(lia) ltac:(lia) 6 1352%Z eq_refl eq_refl 9 ltac:(lia)).
    + intros t T. rewrite ID by lia. reflexivity.
    + intros t v T _ Q. exfalso. cbn [cap_sw ex_parts_in] in Q. destruct (Nat.eqb_spec t 4); [lia|]; destruct (Nat.eqb_spec t 6); [lia|discriminate].
Qed.
