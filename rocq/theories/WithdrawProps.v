(** C152: which slot is marked as filled when software writes the status of the slot in use during a capture. *)
From Coq Require Import ZArith List Bool Lia Arith.
From Verif Require Import Hdl Trace CdcProofs ChanSyncModel InDmaModel InDmaProofs InDmaProps CaptureModel CaptureLiveProofs PermitProps.
Import ListNotations.
Open Scope nat_scope.

(** Specification: software unloads slot [k]: it writes an even value into its status register. *)
Definition unloads (k : nat) (w : sw) : bool := match w with SwStatus j v => (j =? k) && negb (Z.odd v) | _ => false end.

Section Withdraw.
Variables (aw dw align : Z) (ns : nat) (i : nat -> dma_in).
Hypothesis NS : 1 <= ns.
Let st t := dma_run aw dw align (dma_init ns) i t.
Let ld t k := sl_loaded (slot_at (st t) k).

Lemma wd_slot : forall t k, k < ns -> slot_at (st (S t)) k = slot_step aw align k (slot_at (st t) k) (dm_done (st t) (i t) && Nat.eqb (dm_cur (st t)) k) (dm_addr (st t)) (dmi_sw (i t)).
Proof.
  intros t k K. unfold slot_at. change (st (S t)) with (dma_step aw dw align (st t) (i t)). unfold dma_step; cbn [dm_slots].
  rewrite slots_nth by (unfold st; rewrite pm_len; exact K). reflexivity.
Qed.
Lemma wd_av : forall t, dm_av (st t) = ld t (dm_cur (st t)).
Proof.
  intros t. pose proof (pm_cur aw dw align ns i NS t) as C. unfold dm_av, dm_slot, ld, slot_at. change (dm_cur (st t) < ns) in C. replace (length (dm_slots (st t))) with ns by (symmetry; unfold st; apply pm_len; exact NS).
  rewrite Nat.min_l by lia. reflexivity.
Qed.
(** A loaded slot in hand stays in hand while software does not unload it and no capture ends. *)
Lemma wd_stays : forall a b k, a <= b -> k < ns -> dm_cur (st a) = k -> ld a k = true ->
  (forall t, a <= t < b -> dm_done (st t) (i t) = false /\ unloads k (dmi_sw (i t)) = false) -> dm_cur (st b) = k /\ ld b k = true.
Proof.
  intros a b k AB K C L H. induction AB as [|b AB IH]; [split; assumption|].
  destruct IH as [CB LB]; [intros t T; apply H; lia|]. destruct (H b ltac:(lia)) as [D U]. split.
  - change (st (S b)) with (dma_step aw dw align (st b) (i b)). unfold dma_step; cbn [dm_cur]. rewrite wd_av, CB, LB, D. reflexivity.
  - unfold ld. rewrite wd_slot, D by exact K. cbn [andb]. unfold slot_step. unfold unloads in U. destruct (dmi_sw (i b)) as [|j v|j v]; [exact LB| |].
    + destruct (Nat.eqb j k); [|exact LB]. unfold sl_loaded; cbn [sl_status]. rewrite odd_trunc. destruct (Z.odd v); [reflexivity|discriminate].
    + destruct (Nat.eqb j k); exact LB.
Qed.
Lemma wd_marked : forall t k, k < ns -> dm_done (st t) (i t) = true -> dm_cur (st t) = k -> InDmaProps.untouched i k t ->
  slot_at (st (S t)) k = {| sl_status := 2; sl_addr := dm_addr (st t) * 2 ^ align |}.
Proof.
  intros t k K D C U. rewrite wd_slot, D, C, Nat.eqb_refl by exact K. cbn [andb]. unfold slot_step, InDmaProps.untouched in *.
  destruct (dmi_sw (i t)) as [|j v|j v]; try reflexivity; apply Nat.eqb_neq in U; rewrite U; reflexivity.
Qed.
(** The address reached does not depend on what software does during the capture. *)
Lemma wd_addr : (0 < aw)%Z -> forall x z, x < z -> dm_start (st x) (i x) = true -> dm_done (st z) (i z) = true -> (forall t, x < t < z -> dm_done (st t) (i t) = false) ->
  let a := word_address aw align (sl_addr (slot_at (st x) (dm_cur (st x)))) in
  let N := size_words aw align (dmi_size (i x)) in
  (N <> 0)%Z -> dm_addr (st z) = ((a + N) mod 2 ^ aw)%Z.
Proof.
  intros Haw x z XZ HS HD HN a N N0.
  assert (PW : (0 < 2 ^ aw)%Z) by (apply Z.pow_pos_nonneg; lia).
  assert (NB : (0 <= N < 2 ^ aw)%Z) by (apply Z.mod_pos_bound; exact PW).
  assert (INV : forall t, x < t -> t <= z -> match dm_fsm (st t) with
    | WAIT_SOF => False
    | TRANSFER => (1 <= dm_left (st t) <= N)%Z /\ dm_addr (st t) = ((a + (N - dm_left (st t))) mod 2 ^ aw)%Z
    | EOF => dm_addr (st t) = ((a + N) mod 2 ^ aw)%Z end).
  { intros t XT. induction XT as [|t XT IH]; intros TZ.
    - change (st (S x)) with (dma_step aw dw align (st x) (i x)). unfold dma_step; cbn [dm_fsm dm_left dm_addr]. rewrite HS.
      unfold dm_start in HS. destruct (dm_fsm (st x)); try discriminate. change (slice align aw (dmi_size (i x))) with N. split; [lia|].
      rewrite Z.sub_diag, Z.add_0_r. unfold a, word_address, sl_word, slice. rewrite Z.mod_mod by lia. do 4 f_equal.
      pose proof (pm_cur aw dw align ns i NS x) as C. change (dm_cur (st x) < ns) in C. unfold dm_slot, slot_at.
      replace (length (dm_slots (st x))) with ns by (symmetry; unfold st; apply pm_len; exact NS). rewrite Nat.min_l by lia. reflexivity.
    - specialize (IH ltac:(lia)). pose proof (HN t ltac:(lia)) as D. change (st (S t)) with (dma_step aw dw align (st t) (i t)).
      unfold dma_step; cbn [dm_fsm dm_left dm_addr]. rewrite D. unfold dm_write. destruct (dm_fsm (st t)); [destruct IH| |exact IH].
      destruct IH as [L A]. destruct (dmi_valid (i t) && dmi_ready (i t)); cbn [andb]; [|split; assumption].
      unfold trunc. rewrite A, Z.add_mod_idemp_l by lia. destruct (Z.eqb_spec (dm_left (st t)) 1) as [G|G].
      + rewrite G. f_equal. lia.
      + rewrite (Z.mod_small (dm_left (st t) - 1)) by lia. split; [lia|]. f_equal. lia. }
  specialize (INV z XZ ltac:(lia)). unfold dm_done in HD. destruct (dm_fsm (st z)); [discriminate|discriminate|exact INV].
Qed.
End Withdraw.

(** C152.  A capture begins at [x] with slot [c] and ends at [z].  If software does not unload slot [c] meanwhile, whatever else it writes (address and status of
    this slot included), slot [c] is the one marked as filled, with the end of the buffer it had at [x].
    If software unloads it at [w] while another slot [d] is loaded, the capture goes on, and slot [d] is marked as filled, with the end of the buffer of [c]. *)
Theorem C152_marked_slot_partial : forall aw dw align ns i, (0 < aw)%Z -> (0 <= align)%Z -> 1 <= ns ->
  let st u := dma_run aw dw align (dma_init ns) i u in
  forall x z, x < z -> dm_start (st x) (i x) = true -> dm_done (st z) (i z) = true -> (forall t, x < t < z -> dm_done (st t) (i t) = false) ->
  let c := dm_cur (st x) in
  let a := word_address aw align (sl_addr (slot_at (st x) c)) in
  let N := size_words aw align (dmi_size (i x)) in
  (N <> 0)%Z ->
  let filled d := slot_at (st (S z)) d = {| sl_status := 2; sl_addr := ((a + N) mod 2 ^ aw) * 2 ^ align |} in
  ((forall t, x <= t < z -> unloads c (dmi_sw (i t)) = false) -> InDmaProps.untouched i c z -> filled c) /\
  (forall w d, x <= w -> S w < z -> (forall t, x <= t < w -> unloads c (dmi_sw (i t)) = false) -> unloads c (dmi_sw (i w)) = true ->
     d < ns -> sl_loaded (slot_at (st (S w)) d) = true -> (forall k, k < d -> sl_loaded (slot_at (st (S w)) k) = false) ->
     (forall t, S w <= t < z -> unloads d (dmi_sw (i t)) = false) -> InDmaProps.untouched i d z -> filled d).
Proof.
  intros aw dw align ns i Haw Hal NS st x z XZ HS HD HN c a N N0 filled.
  pose proof (wd_addr aw dw align ns i NS Haw x z XZ HS HD HN N0) as AD. change (dm_addr (st z) = ((a + N) mod 2 ^ aw)%Z) in AD.
  pose proof (pm_cur aw dw align ns i NS x) as CN. change (c < ns) in CN.
  assert (LC : sl_loaded (slot_at (st x) c) = true).
  { pose proof (wd_av aw dw align ns i NS x) as V. change (dm_av (st x) = sl_loaded (slot_at (st x) c)) in V. rewrite <- V.
    unfold dm_start in HS. destruct (dm_fsm (st x)); try discriminate. apply andb_prop in HS as [HS _]. apply andb_prop in HS as [HS _]. exact HS. }
  assert (WS : forall t k, k < ns -> slot_at (st (S t)) k = slot_step aw align k (slot_at (st t) k) (dm_done (st t) (i t) && Nat.eqb (dm_cur (st t)) k) (dm_addr (st t)) (dmi_sw (i t))) by (intros t k K; apply wd_slot; exact K).
  assert (D0 : dm_done (st x) (i x) = false) by (unfold dm_start in HS; unfold dm_done; destruct (dm_fsm (st x)); [reflexivity|discriminate|discriminate]).
  assert (DN : forall t, x <= t < z -> dm_done (st t) (i t) = false) by (intros t T; destruct (Nat.eq_dec t x) as [->|]; [exact D0|apply HN; lia]).
  split.
  - intros U UT. unfold filled. destruct (wd_stays aw dw align ns i NS x z c ltac:(lia) CN eq_refl LC) as [C2 _]; [intros t T; split; [apply DN; exact T|apply U; exact T]|].
    rewrite <- AD. exact (wd_marked aw dw align ns i z c CN HD C2 UT).
  - intros w d XW WZ U UW DNS LD LOW U2 UT. unfold filled.
    destruct (wd_stays aw dw align ns i NS x w c XW CN eq_refl LC) as [CW LW]; [intros t T; split; [apply DN; lia|apply U; exact T]|].
    destruct (C26_slot_handover aw dw align Haw Hal ns NS i) as (_ & _ & CH & KEEP). fold st in CH, KEEP.
    assert (CS : dm_cur (st (S w)) = c).
    { change (dm_cur (st w) = c) in CW. transitivity (dm_cur (st w)); [|exact CW]. apply (KEEP w); [|apply DN; lia]. change (sl_loaded (slot_at (st w) (dm_cur (st w))) = true). rewrite CW. exact LW. }
    assert (LS : sl_loaded (slot_at (st (S w)) c) = false).
    { rewrite WS by exact CN. unfold slot_step. unfold unloads in UW.
      destruct (dmi_sw (i w)) as [|j v|j v]; [discriminate| |discriminate]. apply andb_prop in UW as [U1 U3]. rewrite U1. unfold sl_loaded; cbn [sl_status].
      rewrite odd_trunc. destruct (Z.odd v); [discriminate|reflexivity]. }
    destruct (CH (S w)) as (K1 & K2 & K3); [left; change (sl_loaded (slot_at (st (S w)) (dm_cur (st (S w)))) = false); rewrite CS; exact LS|exists d; split; assumption|].
    assert (CD : dm_cur (st (S (S w))) = d).
    { destruct (lt_eq_lt_dec (dm_cur (st (S (S w)))) d) as [[G|G]|G]; [|exact G|].
      - pose proof (LOW _ G) as Q. change (sl_loaded (slot_at (st (S w)) (dm_cur (st (S (S w))))) = true) in K2. congruence.
      - pose proof (K3 d G) as Q. change (sl_loaded (slot_at (st (S w)) d) = false) in Q. congruence. }
    assert (LD2 : sl_loaded (slot_at (st (S (S w))) d) = true).
    { rewrite WS, (DN (S w)) by lia. cbn [andb]. unfold slot_step.
      pose proof (U2 (S w) ltac:(lia)) as U3. unfold unloads in U3. destruct (dmi_sw (i (S w))) as [|j v|j v]; [exact LD| |].
      - destruct (Nat.eqb j d); [|exact LD]. unfold sl_loaded; cbn [sl_status]. rewrite odd_trunc. destruct (Z.odd v); [reflexivity|discriminate].
      - destruct (Nat.eqb j d); exact LD. }
    destruct (wd_stays aw dw align ns i NS (S (S w)) z d WZ DNS CD LD2) as [C2 _]; [intros t T; split; [apply DN; lia|apply U2; lia]|].
    rewrite <- AD. exact (wd_marked aw dw align ns i z d DNS HD C2 UT).
Qed.
Print Assumptions C152_marked_slot_partial.

(** The slot marked as filled need not be the one whose buffer was written: slot 1 with buffer 0x200, slot 0 with buffer 0x100; slot 1 is loaded, its capture begins,
    slot 0 is loaded, slot 1 is unloaded.  At the end slot 0 is PENDING, and no word has been written into its buffer. *)
Definition ex_withdraw (t : nat) : dma_in :=
  {| dmi_valid := true; dmi_sof := true; dmi_px := Z.of_nat t; dmi_ready := negb (t mod 3 =? 0); dmi_wbusy := (t mod 4 =? 1); dmi_size := 64%Z;
     dmi_sw := match t with 0 => SwAddr 0 4096 | 1 => SwAddr 1 8192 | 2 => SwStatus 1 1 | 5 => SwStatus 0 1 | 6 => SwStatus 1 0 | _ => SwNone end |}.
Theorem C152_marked_slot_refuted : exists aw dw align ns i x z c d, c <> d /\ let st u := dma_run aw dw align (dma_init ns) i u in
  dm_start (st x) (i x) = true /\ dm_cur (st x) = c /\ dm_done (st z) (i z) = true /\ x < z /\ (forall t, x < t < z -> dm_done (st t) (i t) = false) /\
  sl_status (slot_at (st (S z)) d) = 2%Z /\ sl_status (slot_at (st (S z)) c) = 0%Z /\
  let a := word_address aw align (sl_addr (slot_at (st x) d)) in
  forall adr data t, t <= z -> write_at aw dw align (dma_init ns) i t = Some (adr, data) -> ~ (a <= adr < a + size_words aw align (dmi_size (i x)))%Z.
Proof.
  exists 25%Z, 128%Z, 4%Z, 2, ex_withdraw, 4, 11, 1, 0. split; [discriminate|]. cbv zeta.
  split; [vm_compute; reflexivity|]. split; [vm_compute; reflexivity|]. split; [vm_compute; reflexivity|]. split; [lia|].
  split. { intros t T. assert (t = 5 \/ t = 6 \/ t = 7 \/ t = 8 \/ t = 9 \/ t = 10) as Q by lia. destruct Q as [->|[->|[->|[->|[->| ->]]]]]; vm_compute; reflexivity. }
  split; [vm_compute; reflexivity|]. split; [vm_compute; reflexivity|].
  intros adr data t T W. do 12 (destruct t as [|t]; [vm_compute in W; try discriminate; injection W as <- _; vm_compute; intros [H1 H2]; try discriminate; apply H1; reflexivity|]). lia.
Qed.
Print Assumptions C152_marked_slot_refuted.

(** Both cases of the theorem occur.  First: during its capture software writes the address of slot 1 and loads it again; slot 1 is marked with the end
    of the old buffer. *)
Definition ex_rewrite (t : nat) : dma_in :=
  {| dmi_valid := true; dmi_sof := true; dmi_px := Z.of_nat t; dmi_ready := negb (t mod 3 =? 0); dmi_wbusy := (t mod 4 =? 1); dmi_size := 64%Z;
     dmi_sw := match t with 0 => SwAddr 0 4096 | 1 => SwAddr 1 8192 | 2 => SwStatus 1 1 | 5 => SwAddr 1 65536 | 6 => SwStatus 1 3 | 7 => SwStatus 0 1 | _ => SwNone end |}.
Example ex_rewrite_marked : slot_at (dma_run 25 128 4 (dma_init 2) ex_rewrite 12) 1 = {| sl_status := 2; sl_addr := (512 + 4) * 2 ^ 4 |}.
Proof.
  assert (S4 : dm_start (dma_run 25 128 4 (dma_init 2) ex_rewrite 4) (ex_rewrite 4) = true) by (vm_compute; reflexivity).
  assert (D11 : dm_done (dma_run 25 128 4 (dma_init 2) ex_rewrite 11) (ex_rewrite 11) = true) by (vm_compute; reflexivity).
  assert (ND : forall t, 4 < t < 11 -> dm_done (dma_run 25 128 4 (dma_init 2) ex_rewrite t) (ex_rewrite t) = false).
  { intros t T. assert (t = 5 \/ t = 6 \/ t = 7 \/ t = 8 \/ t = 9 \/ t = 10) as Q by lia. destruct Q as [->|[->|[->|[->|[->| ->]]]]]; vm_compute; reflexivity. }
  assert (N0 : size_words 25 4 (dmi_size (ex_rewrite 4)) <> 0%Z) by (vm_compute; discriminate).
  assert (C4 : dm_cur (dma_run 25 128 4 (dma_init 2) ex_rewrite 4) = 1) by (vm_compute; reflexivity).
  destruct (C152_marked_slot_partial 25 128 4 2 ex_rewrite ltac:(lia) ltac:(lia) ltac:(lia) 4 11 ltac:(lia) S4 D11 ND N0) as [H _]. rewrite C4 in H.
  rewrite H; [vm_compute; reflexivity| |exact I].
  intros t T. assert (t = 4 \/ t = 5 \/ t = 6 \/ t = 7 \/ t = 8 \/ t = 9 \/ t = 10) as Q by lia. destruct Q as [->|[->|[->|[->|[->|[->| ->]]]]]]; reflexivity.
Qed.
(** Second: [ex_withdraw]. *)
Example ex_withdraw_marked : slot_at (dma_run 25 128 4 (dma_init 2) ex_withdraw 12) 0 = {| sl_status := 2; sl_addr := (512 + 4) * 2 ^ 4 |}.
Proof.
  assert (S4 : dm_start (dma_run 25 128 4 (dma_init 2) ex_withdraw 4) (ex_withdraw 4) = true) by (vm_compute; reflexivity).
  assert (D11 : dm_done (dma_run 25 128 4 (dma_init 2) ex_withdraw 11) (ex_withdraw 11) = true) by (vm_compute; reflexivity).
  assert (ND : forall t, 4 < t < 11 -> dm_done (dma_run 25 128 4 (dma_init 2) ex_withdraw t) (ex_withdraw t) = false).
  { intros t T. assert (t = 5 \/ t = 6 \/ t = 7 \/ t = 8 \/ t = 9 \/ t = 10) as Q by lia. destruct Q as [->|[->|[->|[->|[->| ->]]]]]; vm_compute; reflexivity. }
  assert (N0 : size_words 25 4 (dmi_size (ex_withdraw 4)) <> 0%Z) by (vm_compute; discriminate).
  assert (C4 : dm_cur (dma_run 25 128 4 (dma_init 2) ex_withdraw 4) = 1) by (vm_compute; reflexivity).
  assert (L7 : sl_loaded (slot_at (dma_run 25 128 4 (dma_init 2) ex_withdraw 7) 0) = true) by (vm_compute; reflexivity).
  destruct (C152_marked_slot_partial 25 128 4 2 ex_withdraw ltac:(lia) ltac:(lia) ltac:(lia) 4 11 ltac:(lia) S4 D11 ND N0) as [_ H]. rewrite C4 in H.
  rewrite (H 6 0 ltac:(lia) ltac:(lia)); [vm_compute; reflexivity| |reflexivity|lia|exact L7|intros k K; lia| |exact I].
  - intros t T. assert (t = 4 \/ t = 5) as Q by lia. destruct Q as [->| ->]; reflexivity.
  - intros t T. assert (t = 7 \/ t = 8 \/ t = 9 \/ t = 10) as Q by lia. destruct Q as [->|[->|[->| ->]]]; reflexivity.
Qed.
