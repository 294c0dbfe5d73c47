(** Final theorems about the capture DMA: C24, C25, C26, C27. *)
From Coq Require Import ZArith List Bool Lia Arith.
From Verif Require Import Hdl Trace InDmaModel InDmaProofs.
Import ListNotations.
Open Scope nat_scope.

(** Frame size in memory words, from the byte count in the register. *)
Definition size_words (aw align size : Z) : Z := ((size / 2 ^ align) mod 2 ^ aw)%Z.
(** Word address from the byte address in the slot register. *)
Definition word_address (aw align addr : Z) : Z := ((addr / 2 ^ align) mod 2 ^ aw)%Z.

(** ** C24 *)

(** A capture starts in clock [t0] into the current slot, at word address [a],
    for [N >= 1] words; the [N]-th word is accepted by the memory in clock
    [t0+m].  Then the writes are exactly the [N] accepted words, in order, at
    consecutive addresses; afterwards nothing is written, and the capture
    completes in the first clock [t2] in which the memory port has no pending
    write data. *)
Theorem C24_frame_written :
  forall (aw dw align : Z), (0 < aw)%Z ->
  forall (s0 : dma_st) (i : nat -> dma_in),
  let st := dma_run aw dw align s0 i in
  let writes := write_at aw dw align s0 i in
  forall t0 m N, dm_start (st t0) (i t0) = true ->
  let a := word_address aw align (sl_addr (dm_slot (st t0))) in
  Z.of_nat N = size_words aw align (dmi_size (i t0)) -> 1 <= N -> 1 <= m ->
  occurrences (accepted i) (t0 + 1) (m - 1) = N - 1 -> accepted i (t0 + m) = true ->
  collect writes (t0 + 1) m
  = combine (map (fun j => (a + Z.of_nat j) mod 2 ^ aw)%Z (seq 0 N)) (collect (accepted_word dw i) (t0 + 1) m) /\
  length (collect writes (t0 + 1) m) = N /\
  forall t2, t0 + m < t2 -> (forall t, t0 + m < t < t2 -> dmi_wbusy (i t) = true) ->
    (forall t, t0 + m < t <= t2 -> writes t = None) /\
    (dmi_wbusy (i t2) = false -> dm_done (st t2) (i t2) = true /\ dm_fsm (st (S t2)) = WAIT_SOF) /\
    (forall t, t0 < t < t2 -> dm_done (st t) (i t) = false).
Proof.
  intros aw dw align Haw s0 i st writes t0 m N Hs a HN H1 Hm Hocc Hacc.
  rewrite Nat.add_1_r in *.
  assert (HNN : (Z.of_nat N = if slice align aw (dmi_size (i t0)) =? 0 then 2 ^ aw else slice align aw (dmi_size (i t0)))%Z).
  { unfold size_words in HN. unfold slice. rewrite <- HN. destruct (Z.eqb_spec (Z.of_nat N) 0); [lia|reflexivity]. }
  assert (OC : occurrences (accepted i) (S t0) m = N).
  { replace m with (S (m - 1)) by lia. cbn [occurrences]. replace (S t0 + (m - 1)) with (t0 + m) by lia.
    rewrite Hacc, Hocc. lia. }
  pose proof (InDmaProofs.writes aw dw align Haw s0 i t0 a N Hs eq_refl HNN m ltac:(lia) ltac:(right; lia)) as W.
  rewrite OC in W.
  assert (LA : length (collect (accepted_word dw i) (S t0) m) = N).
  { rewrite collect_length, <- OC. apply occurrences_ext. intros t _. unfold accepted_word. destruct (accepted i t); reflexivity. }
  split; [exact W|]. split.
  - unfold writes. rewrite W, combine_length, map_length, seq_length, LA. lia.
  - intros t2 Ht2 Hb.
    assert (EO : forall t, t0 + m < t <= t2 -> dm_fsm (st t) = EOF).
    { intros t Ht.
      destruct (finishing aw dw align Haw s0 i t0 a N (m - 1) Hs eq_refl HNN Hocc
                  ltac:(replace (S t0 + (m - 1)) with (t0 + m) by lia; exact Hacc) (t - (t0 + m) - 1)) as [E _].
      { intros u Hu. apply Hb. lia. }
      replace (S t0 + (m - 1) + S (t - (t0 + m) - 1)) with t in E by lia. exact E. }
    assert (OM : forall m1 m2, m1 <= m2 -> occurrences (accepted i) (S t0) m1 <= occurrences (accepted i) (S t0) m2).
    { clear. intros m1 m2 H. induction H as [|m2 H IH]; [lia|]. cbn [occurrences]. lia. }
    split; [|split].
    + intros t Ht. unfold writes, write_at, dm_write. fold st. rewrite EO by exact Ht. reflexivity.
    + intros B. unfold dm_done. rewrite EO by lia. rewrite B. split; [reflexivity|].
      change (st (S t2)) with (dma_step aw dw align (st t2) (i t2)). unfold dma_step. cbn [dm_fsm].
      unfold dm_done. rewrite EO, B by lia. reflexivity.
    + intros t Ht. unfold dm_done. destruct (le_lt_dec t (t0 + m)) as [L|L].
      * destruct (transferring aw dw align Haw s0 i t0 a N Hs eq_refl HNN (t - S t0)) as (F & _).
        { specialize (OM (t - S t0) (m - 1) ltac:(lia)). lia. }
        replace (S t0 + (t - S t0)) with t in F by lia. fold st in F. rewrite F. reflexivity.
      * rewrite EO by lia. rewrite Hb by lia. reflexivity.
Qed.
Print Assumptions C24_frame_written.

(** ** C25 *)

(** Every write of every run from reset goes to the slot buffer, provided the
    frame size register holds at least one word whenever a capture starts.
    Missing from the full statement: frame size 0 (the reset value) and sizes
    smaller than a word; see the refutation. *)
Theorem C25_writes_in_buffer_partial :
  forall (aw dw align : Z), (0 < aw)%Z ->
  forall (nslots : nat) (i : nat -> dma_in),
  let st := dma_run aw dw align (dma_init nslots) i in
  forall n addr data, write_at aw dw align (dma_init nslots) i n = Some (addr, data) ->
  exists t0, t0 < n /\ dm_start (st t0) (i t0) = true /\
    let a := word_address aw align (sl_addr (dm_slot (st t0))) in
    let N := size_words aw align (dmi_size (i t0)) in
    (N <> 0 -> (exists j, 0 <= j < N /\ addr = (a + j) mod 2 ^ aw) /\
               (a + N <= 2 ^ aw -> a <= addr < a + N))%Z.
Proof.
  intros aw dw align Haw nslots i st n addr data H.
  unfold write_at, dm_write in H. fold st in H.
  destruct (dm_fsm (st n)) eqn:F; try discriminate.
  destruct (dmi_valid (i n) && dmi_ready (i n)); [|discriminate]. injection H as <- _.
  destruct (proj1 (transfer_origin aw dw align Haw (dma_init nslots) i eq_refl n) F) as (t0 & m & -> & Hs & Hk).
  exists t0. split; [lia|]. split; [exact Hs|]. intros a N HN.
  assert (HNz : (0 <= N < 2 ^ aw)%Z) by (unfold N, size_words; apply Z.mod_pos_bound, Z.pow_pos_nonneg; lia).
  assert (HNN : (Z.of_nat (Z.to_nat N) = if slice align aw (dmi_size (i t0)) =? 0 then 2 ^ aw else slice align aw (dmi_size (i t0)))%Z).
  { rewrite Z2Nat.id by lia. unfold N, size_words, slice in *. destruct (Z.eqb_spec ((dmi_size (i t0) / 2 ^ align) mod 2 ^ aw) 0); congruence. }
  rewrite <- HNN in Hk. rewrite Z2Nat.id in Hk by lia.
  destruct (transferring aw dw align Haw (dma_init nslots) i t0 a (Z.to_nat N) Hs eq_refl HNN m ltac:(lia)) as (_ & A & _).
  fold st in A. rewrite A. split.
  - eexists; split; [|reflexivity]. lia.
  - intros Hfit. assert (0 <= a)%Z by (unfold a, word_address; apply Z.mod_pos_bound, Z.pow_pos_nonneg; lia).
    rewrite trunc_id by lia. lia.
Qed.
Print Assumptions C25_writes_in_buffer_partial.

(** With a frame size below one word, the capture writes 2^aw words: the whole
    address space, whatever the buffer. *)
Theorem C25_zero_size_refuted :
  forall (aw dw align : Z), (0 < aw)%Z ->
  forall (s0 : dma_st) (i : nat -> dma_in),
  let st := dma_run aw dw align s0 i in
  forall t0, dm_start (st t0) (i t0) = true -> size_words aw align (dmi_size (i t0)) = 0%Z ->
  (forall t, t0 < t -> accepted i t = true) ->
  let a := word_address aw align (sl_addr (dm_slot (st t0))) in
  forall j, (0 <= j < 2 ^ aw)%Z ->
  write_at aw dw align s0 i (t0 + 1 + Z.to_nat j)
  = Some (((a + j) mod 2 ^ aw)%Z, (dmi_px (i (t0 + 1 + Z.to_nat j)%nat) mod 2 ^ dw)%Z).
Proof.
  intros aw dw align Haw s0 i st t0 Hs HN Hacc a j Hj.
  assert (HNN : (Z.of_nat (Z.to_nat (2 ^ aw)) = if slice align aw (dmi_size (i t0)) =? 0 then 2 ^ aw else slice align aw (dmi_size (i t0)))%Z).
  { rewrite Z2Nat.id by lia. unfold size_words in HN. unfold slice. rewrite HN. reflexivity. }
  assert (OC : forall m, occurrences (accepted i) (S t0) m = m).
  { induction m as [|m IH]; [reflexivity|]. cbn [occurrences]. rewrite IH, Hacc by lia. lia. }
  destruct (transferring aw dw align Haw s0 i t0 a _ Hs eq_refl HNN (Z.to_nat j)) as (F & A & _).
  { rewrite OC. lia. }
  rewrite OC, Z2Nat.id in A by lia. unfold write_at, dm_write.
  replace (t0 + 1 + Z.to_nat j) with (S t0 + Z.to_nat j) by lia. rewrite F, A.
  specialize (Hacc (S t0 + Z.to_nat j) ltac:(lia)). unfold accepted in Hacc. rewrite Hacc. reflexivity.
Qed.
Print Assumptions C25_zero_size_refuted.

(** Such a run exists from reset: software loads slot 0 with address 64 bytes
    and never writes the frame size register. *)
Definition ex_zero (t : nat) : dma_in :=
  {| dmi_valid := true; dmi_sof := t =? 3; dmi_px := 7; dmi_ready := true; dmi_wbusy := false; dmi_size := 0;
     dmi_sw := match t with 0 => SwAddr 0 64 | 1 => SwStatus 0 1 | _ => SwNone end |}.
Example ex_zero_run : dm_start (dma_run 25 128 4 (dma_init 2) ex_zero 3) (ex_zero 3) = true /\
  write_at 25 128 4 (dma_init 2) ex_zero 100 = Some (100, 7)%Z.
Proof. vm_compute. split; reflexivity. Qed.

(** ** C26 *)

(** Software does not touch slot [k] in clock [t]. *)
Definition untouched (i : nat -> dma_in) (k t : nat) : Prop :=
  match dmi_sw (i t) with SwNone => True | SwStatus n _ | SwAddr n _ => n <> k end.

(** The slot whose number is [k]. *)
Definition slot_at (s : dma_st) (k : nat) : slot := nth k (dm_slots s) slot0.

Lemma slot_kept : forall aw dw align s0 i n k,
  untouched i k n -> (dm_done (dma_run aw dw align s0 i n) (i n) = false \/ dm_cur (dma_run aw dw align s0 i n) <> k) ->
  slot_at (dma_run aw dw align s0 i (S n)) k = slot_at (dma_run aw dw align s0 i n) k.
Proof.
  intros aw dw align s0 i n k U D. unfold slot_at.
  change (dma_run aw dw align s0 i (S n)) with (dma_step aw dw align (dma_run aw dw align s0 i n) (i n)).
  unfold dma_step. cbn [dm_slots]. rewrite nth_slots_step.
  destruct (Nat.ltb_spec k (length (dm_slots (dma_run aw dw align s0 i n)))) as [L|L].
  - cbn [Nat.add]. assert (X : dm_done (dma_run aw dw align s0 i n) (i n) && Nat.eqb (dm_cur (dma_run aw dw align s0 i n)) k = false).
    { destruct D as [-> | D]; [reflexivity|]. apply andb_false_intro2. apply Nat.eqb_neq. exact D. }
    rewrite X. unfold slot_step, untouched in *.
    destruct (dmi_sw (i n)) as [|q v|q v]; [reflexivity| |]; rewrite (proj2 (Nat.eqb_neq q k)) by exact U; reflexivity.
  - rewrite nth_overflow by exact L. reflexivity.
Qed.

Theorem C26_slot_handover :
  forall (aw dw align : Z), (0 < aw)%Z -> (0 <= align)%Z ->
  forall (nslots : nat), 1 <= nslots ->
  forall (i : nat -> dma_in),
  let st := dma_run aw dw align (dma_init nslots) i in
  (* a slot only changes by software, or when the capture into it completes *)
  (forall n k, untouched i k n -> slot_at (st (S n)) k <> slot_at (st n) k ->
     dm_done (st n) (i n) = true /\ dm_cur (st n) = k) /\
  (* a capture started in t0 and completing in t2 belongs to one slot, which stays as it is
     until then and becomes PENDING with the end address; its event is raised *)
  (forall t0 t2, t0 < t2 -> dm_start (st t0) (i t0) = true -> dm_done (st t2) (i t2) = true ->
     (forall t, t0 < t < t2 -> dm_done (st t) (i t) = false) ->
     let k := dm_cur (st t0) in
     (forall t, t0 <= t <= t2 -> untouched i k t) ->
     let a := word_address aw align (sl_addr (slot_at (st t0) k)) in
     let N := size_words aw align (dmi_size (i t0)) in
     k < nslots /\ sl_loaded (slot_at (st t0) k) = true /\
     (forall t, t0 <= t <= t2 -> dm_cur (st t) = k /\ slot_at (st t) k = slot_at (st t0) k) /\
     sl_status (slot_at (st (S t2)) k) = 2%Z /\
     sl_addr (slot_at (st (S t2)) k) = (((a + N) mod 2 ^ aw) * 2 ^ align)%Z /\
     sl_event (slot_at (st (S t2)) k) = true /\ sl_loaded (slot_at (st (S t2)) k) = false) /\
  (* the current slot number changes only when the current slot is not loaded or complete,
     to the lowest loaded slot *)
  (forall n, sl_loaded (slot_at (st n) (dm_cur (st n))) = false \/ dm_done (st n) (i n) = true ->
     (exists k, k < nslots /\ sl_loaded (slot_at (st n) k) = true) ->
     let k := dm_cur (st (S n)) in
     k < nslots /\ sl_loaded (slot_at (st n) k) = true /\ forall k', k' < k -> sl_loaded (slot_at (st n) k') = false) /\
  (forall n, sl_loaded (slot_at (st n) (dm_cur (st n))) = true -> dm_done (st n) (i n) = false ->
     dm_cur (st (S n)) = dm_cur (st n)).
Proof.
  intros aw dw align Haw Hal nslots Hns i st.
  assert (LEN : forall n, length (dm_slots (st n)) = nslots).
  { intros n. unfold st. rewrite slots_length. apply repeat_length. }
  assert (CB : forall n, dm_cur (st n) < nslots).
  { intros n. unfold st. pose proof (cur_bound aw dw align (dma_init nslots) i) as X.
    cbn [dma_init dm_cur dm_slots] in X. rewrite repeat_length in X. apply X. lia. }
  assert (SL : forall n, dm_slot (st n) = slot_at (st n) (dm_cur (st n))).
  { intros n. unfold dm_slot, slot_at. rewrite LEN. rewrite Nat.min_l by (specialize (CB n); lia). reflexivity. }
  assert (KEEP : forall n, sl_loaded (slot_at (st n) (dm_cur (st n))) = true -> dm_done (st n) (i n) = false ->
     dm_cur (st (S n)) = dm_cur (st n)).
  { intros n L D. change (st (S n)) with (dma_step aw dw align (st n) (i n)). unfold dma_step. cbn [dm_cur].
    unfold dm_av. rewrite SL, L, D. reflexivity. }
  split; [|split; [|split]].
  - intros n k U Hne. destruct (dm_done (st n) (i n)) eqn:D.
    + split; [reflexivity|]. destruct (Nat.eq_dec (dm_cur (st n)) k) as [E|E]; [exact E|].
      exfalso. apply Hne. apply slot_kept; [exact U|right; exact E].
    + exfalso. apply Hne. apply slot_kept; [exact U|left; exact D].
  - intros t0 t2 H02 Hs Hd Hnd k HU a N.
    assert (LD : sl_loaded (slot_at (st t0) k) = true).
    { unfold dm_start in Hs. destruct (dm_fsm (st t0)); try discriminate. unfold dm_av in Hs. rewrite SL in Hs.
      apply andb_true_iff in Hs. destruct Hs as [Hs _]. apply andb_true_iff in Hs. apply Hs. }
    assert (D0 : dm_done (st t0) (i t0) = false).
    { unfold dm_start in Hs. unfold dm_done. destruct (dm_fsm (st t0)); try discriminate. reflexivity. }
    assert (INV : forall t, t0 <= t -> t <= t2 -> dm_cur (st t) = k /\ slot_at (st t) k = slot_at (st t0) k).
    { intros t Ht. induction Ht as [|t Ht IH]; intros Hle; [split; reflexivity|].
      destruct (IH ltac:(lia)) as [C S].
      assert (D : dm_done (st t) (i t) = false).
      { destruct (Nat.eq_dec t t0) as [->|]; [exact D0|apply Hnd; lia]. }
      split.
      - rewrite (KEEP t); [exact C| |exact D]. rewrite C, S. exact LD.
      - rewrite <- S. apply slot_kept; [apply HU; lia|left; exact D]. }
    destruct (INV t2 ltac:(lia) ltac:(lia)) as [C2 S2].
    assert (FSM2 : dm_fsm (st t2) = EOF).
    { unfold dm_done in Hd. destruct (dm_fsm (st t2)); try discriminate. reflexivity. }
    assert (ADDR : dm_addr (st t2) = ((a + N) mod 2 ^ aw)%Z).
    { destruct (proj2 (transfer_origin aw dw align Haw (dma_init nslots) i eq_refl t2) FSM2)
        as (u0 & m & q & E & Hs' & Ha & HN & Hb).
      fold st in Hs'.
      set (NN := Z.to_nat (if slice align aw (dmi_size (i u0)) =? 0 then 2 ^ aw else slice align aw (dmi_size (i u0)))%Z).
      assert (Hsl : forall x, (0 <= slice align aw x < 2 ^ aw)%Z).
      { intros x. unfold slice. apply Z.mod_pos_bound. apply Z.pow_pos_nonneg; lia. }
      assert (HNN : (Z.of_nat NN = if slice align aw (dmi_size (i u0)) =? 0 then 2 ^ aw else slice align aw (dmi_size (i u0)))%Z).
      { unfold NN. rewrite Z2Nat.id; [reflexivity|]. specialize (Hsl (dmi_size (i u0))).
        destruct (Z.eqb_spec (slice align aw (dmi_size (i u0))) 0); [apply Z.pow_nonneg; lia|lia]. }
      destruct (finishing aw dw align Haw (dma_init nslots) i u0 _ NN m Hs' eq_refl HNN ltac:(lia) Ha q Hb) as [_ A].
      fold st in A. rewrite <- E in A.
      assert (U : u0 = t0).
      { (* the start that leads to this completion is the one in t0 *)
        destruct (lt_eq_lt_dec u0 t0) as [[L|L]|L]; [exfalso|exact L|exfalso].
        - (* t0 lies inside the capture started in u0, so the FSM is not waiting *)
          assert (W : dm_fsm (st t0) <> WAIT_SOF).
          { destruct (le_lt_dec t0 (S u0 + m)) as [X|X].
            - destruct (transferring aw dw align Haw (dma_init nslots) i u0 _ NN Hs' eq_refl HNN (t0 - S u0)) as (F & _).
              { assert (OM : occurrences (accepted i) (S u0) (t0 - S u0) <= occurrences (accepted i) (S u0) m).
                { assert (Y : t0 - S u0 <= m) by lia. clear - Y. induction Y as [|m2 H IH]; [lia|]. cbn [occurrences]. lia. }
                lia. }
              replace (S u0 + (t0 - S u0)) with t0 in F by lia. fold st in F. rewrite F. discriminate.
            - destruct (finishing aw dw align Haw (dma_init nslots) i u0 _ NN m Hs' eq_refl HNN ltac:(lia) Ha (t0 - (S u0 + m) - 1)) as [F _].
              { intros t Ht. apply Hb. lia. }
              replace (S u0 + m + S (t0 - (S u0 + m) - 1)) with t0 in F by lia. fold st in F. rewrite F. discriminate. }
          apply W. unfold dm_start in Hs. destruct (dm_fsm (st t0)); congruence.
        - (* u0 > t0: the FSM came back to WAIT_SOF between t0 and t2, so it completed *)
          assert (NW : forall t, t0 < t -> t <= t2 -> dm_fsm (st t) <> WAIT_SOF).
          { intros t Ht. induction Ht as [|t Ht IH]; intros Hle.
            - destruct (after_start aw dw align (dma_init nslots) i t0 Hs) as (F & _). fold st in F. rewrite F. discriminate.
            - specialize (IH ltac:(lia)). change (st (S t)) with (dma_step aw dw align (st t) (i t)).
              unfold dma_step. cbn [dm_fsm]. rewrite Hnd by lia.
              destruct (dm_fsm (st t)); [congruence| |discriminate].
              destruct (_ && _); discriminate. }
          apply (NW u0 L ltac:(lia)). unfold dm_start in Hs'. destruct (dm_fsm (st u0)); congruence. }
      subst u0. rewrite A, HNN. rewrite SL. fold k. unfold a, N, size_words, word_address, sl_word, slice.
      unfold trunc. destruct (Z.eqb_spec ((dmi_size (i t0) / 2 ^ align) mod 2 ^ aw) 0) as [Z0|Z0]; [|reflexivity].
      rewrite Z0. rewrite <- (Z.mul_1_l (2 ^ aw)) at 2. rewrite Z.mod_add by (apply Z.pow_nonzero; lia).
      rewrite Z.add_0_r. reflexivity. }
    assert (FIN : slot_at (st (S t2)) k = {| sl_status := 2; sl_addr := dm_addr (st t2) * 2 ^ align |}).
    { unfold slot_at. change (st (S t2)) with (dma_step aw dw align (st t2) (i t2)).
      unfold dma_step. cbn [dm_slots]. rewrite nth_slots_step, LEN.
      destruct (Nat.ltb_spec k nslots) as [L|L]; [|specialize (CB t0); unfold k in L; lia].
      cbn [Nat.add]. rewrite Hd, C2, Nat.eqb_refl. cbn [andb]. unfold slot_step.
      specialize (HU t2 ltac:(lia)). unfold untouched in HU.
      destruct (dmi_sw (i t2)) as [|q v|q v]; [reflexivity| |]; rewrite (proj2 (Nat.eqb_neq q k)) by exact HU; reflexivity. }
    rewrite FIN, ADDR. split; [apply CB|]. split; [exact LD|]. split; [intros t [? ?]; apply INV; assumption|].
    repeat split.
  - intros n Hch (k0 & Hk0 & L0) k.
    assert (E : k = lowest (dm_slots (st n)) 0 (dm_cur (st n))).
    { unfold k. change (st (S n)) with (dma_step aw dw align (st n) (i n)). unfold dma_step. cbn [dm_cur].
      unfold dm_av. rewrite SL. destruct Hch as [-> | ->]; [reflexivity|rewrite orb_true_r; reflexivity]. }
    destruct (lowest_spec (dm_slots (st n)) 0 (dm_cur (st n))) as [(j & Hj & EQ & L & M)|[_ M]].
    + rewrite LEN in Hj. rewrite E, EQ. cbn [Nat.add]. repeat split; assumption.
    + exfalso. rewrite LEN in M. specialize (M k0 Hk0). unfold slot_at in L0. congruence.
  - exact KEEP.
Qed.
Print Assumptions C26_slot_handover.

(** ** C27 *)

(** The frame stream follows the stream protocol: a word offered and not taken
    stays offered. *)
Definition frame_stream_stable (aw dw align : Z) (s0 : dma_st) (i : nat -> dma_in) : Prop :=
  forall t, dmi_valid (i t) = true -> dm_ready (dma_run aw dw align s0 i t) (i t) = false ->
  dmi_valid (i (S t)) = true /\ dmi_sof (i (S t)) = dmi_sof (i t) /\ dmi_px (i (S t)) = dmi_px (i t).

Theorem C27_starts_at_sof :
  forall (aw dw align : Z), (0 < aw)%Z ->
  forall (nslots : nat) (i : nat -> dma_in),
  let st := dma_run aw dw align (dma_init nslots) i in
  (* while waiting: nothing is written, words without sof or without a loaded slot are taken *)
  (forall n, dm_fsm (st n) = WAIT_SOF ->
     write_at aw dw align (dma_init nslots) i n = None /\
     (dmi_sof (i n) = false -> dm_ready (st n) (i n) = true) /\
     (dm_av (st n) = false -> dm_ready (st n) (i n) = true)) /\
  (* a capture starts exactly when a sof word is offered while a slot is loaded; that word
     is not lost: it is the first word written, at the slot address *)
  (forall t0, dm_start (st t0) (i t0) = true ->
     dmi_valid (i t0) = true /\ dmi_sof (i t0) = true /\ sl_loaded (dm_slot (st t0)) = true) /\
  (frame_stream_stable aw dw align (dma_init nslots) i ->
   forall t0 m, dm_start (st t0) (i t0) = true ->
   (forall t, t0 < t < t0 + 1 + m -> accepted i t = false) -> accepted i (t0 + 1 + m) = true ->
   dmi_sof (i (t0 + 1 + m)) = true /\ dmi_px (i (t0 + 1 + m)) = dmi_px (i t0) /\
   write_at aw dw align (dma_init nslots) i (t0 + 1 + m)
   = Some (word_address aw align (sl_addr (dm_slot (st t0))), (dmi_px (i t0) mod 2 ^ dw)%Z)) /\
  (* every write belongs to such a capture *)
  (forall n w, write_at aw dw align (dma_init nslots) i n = Some w ->
     exists t0, t0 < n /\ dm_start (st t0) (i t0) = true).
Proof.
  intros aw dw align Haw nslots i st. split; [|split; [|split]].
  - intros n F. unfold write_at, dm_write, dm_ready. fold st. rewrite F. split; [reflexivity|]. split.
    + intros ->. apply orb_true_r.
    + intros ->. reflexivity.
  - intros t0 Hs. unfold dm_start in Hs. destruct (dm_fsm (st t0)); try discriminate. unfold dm_av in Hs.
    apply andb_true_iff in Hs. destruct Hs as [Hs ?]. apply andb_true_iff in Hs. tauto.
  - intros Hst t0 m Hs Hna Hacc.
    assert (HNN : exists N, (Z.of_nat N = if slice align aw (dmi_size (i t0)) =? 0 then 2 ^ aw else slice align aw (dmi_size (i t0)))%Z /\ 1 <= N).
    { assert (Hsl : (0 <= slice align aw (dmi_size (i t0)) < 2 ^ aw)%Z) by (unfold slice; apply Z.mod_pos_bound, Z.pow_pos_nonneg; lia).
      exists (Z.to_nat (if slice align aw (dmi_size (i t0)) =? 0 then 2 ^ aw else slice align aw (dmi_size (i t0)))%Z).
      destruct (Z.eqb_spec (slice align aw (dmi_size (i t0))) 0); rewrite Z2Nat.id; lia. }
    destruct HNN as (N & HNN & HN1).
    assert (OC : forall q, q <= m -> occurrences (accepted i) (S t0) q = 0).
    { induction q as [|q IH]; intros Hq; [reflexivity|]. cbn [occurrences]. rewrite IH, Hna by lia. reflexivity. }
    assert (T : forall q, q <= m -> dm_fsm (st (S t0 + q)) = TRANSFER /\
               dm_addr (st (S t0 + q)) = sl_word aw align (dm_slot (st t0))).
    { intros q Hq. destruct (transferring aw dw align Haw (dma_init nslots) i t0 _ N Hs eq_refl HNN q ltac:(rewrite OC by lia; lia)) as (F & A & _).
      rewrite OC in A by lia. rewrite Z.add_0_r in A. fold st in A, F. split; [exact F|]. rewrite A.
      apply trunc_id. unfold sl_word, slice. apply Z.mod_pos_bound, Z.pow_pos_nonneg; lia. }
    assert (W : dmi_valid (i t0) = true /\ dmi_sof (i t0) = true /\ dm_ready (st t0) (i t0) = false).
    { unfold dm_start in Hs. unfold dm_ready. destruct (dm_fsm (st t0)); try discriminate.
      destruct (dm_av (st t0)), (dmi_sof (i t0)), (dmi_valid (i t0)); try discriminate. auto. }
    destruct W as (V0 & S0 & R0).
    assert (K : forall q, q <= m -> dmi_valid (i (S t0 + q)) = true /\ dmi_sof (i (S t0 + q)) = true /\
                dmi_px (i (S t0 + q)) = dmi_px (i t0)).
    { induction q as [|q IH]; intros Hq.
      - rewrite Nat.add_0_r. destruct (Hst t0 V0 R0) as (A & B & C). rewrite B. auto.
      - destruct (IH ltac:(lia)) as (A & B & C). rewrite Nat.add_succ_r.
        destruct (Hst (S t0 + q) A) as (A' & B' & C').
        { fold st. unfold dm_ready. destruct (T q ltac:(lia)) as [-> _].
          specialize (Hna (S t0 + q) ltac:(lia)). unfold accepted in Hna. rewrite A in Hna. exact Hna. }
        rewrite B', C'. auto. }
    replace (t0 + 1 + m) with (S t0 + m) in * by lia.
    destruct (K m ltac:(lia)) as (A & B & C). destruct (T m ltac:(lia)) as [F AD].
    split; [exact B|]. split; [exact C|]. unfold write_at, dm_write. fold st. rewrite F.
    unfold accepted in Hacc. rewrite Hacc, AD, C. reflexivity.
  - intros n [addr data] H.
    destruct (C25_writes_in_buffer_partial aw dw align Haw nslots i n addr data H) as (t0 & A & B & _).
    exists t0. split; assumption.
Qed.
Print Assumptions C27_starts_at_sof.

(** A complete capture of 4 words into slot 1 of two slots, with memory stalls. *)
Definition ex_dma (t : nat) : dma_in :=
  {| dmi_valid := true; dmi_sof := (t =? 5) || (t =? 6); dmi_px := Z.of_nat (100 + t); dmi_ready := Nat.even t;
     dmi_wbusy := t <? 16; dmi_size := 64;
     dmi_sw := match t with 0 => SwAddr 1 320 | 1 => SwStatus 1 1 | _ => SwNone end |}.
Example ex_dma_writes : collect (write_at 25 128 4 (dma_init 2) ex_dma) 0 30
  = [(20, 106); (21, 108); (22, 110); (23, 112)]%Z.
Proof. vm_compute. reflexivity. Qed.
Example ex_dma_slot : dm_start (dma_run 25 128 4 (dma_init 2) ex_dma 5) (ex_dma 5) = true /\
  dm_done (dma_run 25 128 4 (dma_init 2) ex_dma 16) (ex_dma 16) = true /\
  slot_at (dma_run 25 128 4 (dma_init 2) ex_dma 17) 1 = {| sl_status := 2; sl_addr := 384 |}.
Proof. vm_compute. repeat split. Qed.
