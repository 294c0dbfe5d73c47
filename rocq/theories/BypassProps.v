(** C153: how often a loaded slot is passed over. *)
From Coq Require Import ZArith List Bool Lia Arith.
From Verif Require Import Hdl Trace CdcProofs ChanSyncModel InDmaModel InDmaProofs InDmaProps CaptureModel CaptureLiveProofs PermitProps WithdrawProps.
Import ListNotations.
Open Scope nat_scope.

(** Specification: the number of loaded slots with a number below [d]. *)
Definition loaded_below (s : dma_st) (d : nat) : nat := length (filter (fun k => sl_loaded (slot_at s k)) (seq 0 d)).

Lemma firstn_step : forall aw align d l k cur dn r w, firstn d (slots_step aw align k l cur dn r w) = slots_step aw align k (firstn d l) cur dn r w.
Proof. intros aw align. induction d as [|d IH]; intros l k cur dn r w; [reflexivity|]. destruct l as [|s l]; [reflexivity|]. cbn [slots_step firstn]. rewrite IH. reflexivity. Qed.
Lemma held_count : forall l d, d <= length l -> held (firstn d l) = length (filter (fun k => sl_loaded (nth k l slot0)) (seq 0 d)).
Proof.
  intros l. induction d as [|d IH]; intros D; [reflexivity|]. rewrite seq_S, filter_app, app_length, <- IH by lia. cbn [Nat.add filter].
  assert (X : firstn (S d) l = firstn d l ++ [nth d l slot0]).
  { clear IH. revert l D. induction d as [|d IH]; intros [|s l] D; cbn [length] in D; try lia; [reflexivity|].
    cbn [firstn nth app]. f_equal. apply IH. lia. }
  rewrite X. assert (Y : forall a b, held (a ++ b) = held a + held b) by (induction a as [|s a IHa]; intros b; [reflexivity|cbn [app held]; rewrite IHa; lia]).
  rewrite Y. cbn [held]. destruct (sl_loaded (nth d l slot0)); cbn; lia.
Qed.
Lemma lowest_le : forall l k cur d, d < length l -> sl_loaded (nth d l slot0) = true -> lowest l k cur <= k + d.
Proof.
  induction l as [|s l IH]; intros k cur d D L; cbn [length] in D; [lia|]. cbn [lowest]. destruct (sl_loaded s) eqn:Q; [lia|].
  destruct d as [|d]; [cbn [nth] in L; congruence|]. specialize (IH (S k) cur d ltac:(lia) L). lia.
Qed.

Lemma nth_firstn_lt : forall (l : list slot) d k, k < d -> nth k (firstn d l) slot0 = nth k l slot0.
Proof. induction l as [|s l IH]; intros [|d] [|k] K; try reflexivity; try lia. cbn [firstn nth]. apply IH. lia. Qed.

Section Bypass.
Variables (aw dw align : Z) (ns : nat) (i : nat -> dma_in).
Hypothesis NS : 1 <= ns.
Let st t := dma_run aw dw align (dma_init ns) i t.
Hypothesis POL : forall t k v, dmi_sw (i t) = SwStatus k v -> sl_loaded (slot_at (st t) k) = false.

(** The slot in hand is loaded during a capture. *)
Lemma by_av : forall t, dm_fsm (st t) <> WAIT_SOF -> dm_av (st t) = true.
Proof.
  induction t as [|t IH]; [intros H; exfalso; apply H; reflexivity|]. intros W.
  assert (A : dm_av (st t) = true /\ dm_done (st t) (i t) = false).
  { change (st (S t)) with (dma_step aw dw align (st t) (i t)) in W. unfold dma_step in W; cbn [dm_fsm] in W. unfold dm_start, dm_done in *.
    destruct (dm_fsm (st t)).
    - destruct (dm_av (st t)); [split; reflexivity|]. cbn [andb] in W. congruence.
    - split; [apply IH; discriminate|reflexivity].
    - destruct (negb (dmi_wbusy (i t))); [congruence|]. split; [apply IH; discriminate|reflexivity]. }
  destruct A as [A D]. pose proof (pm_cur aw dw align ns i NS t) as C. change (dm_cur (st t) < ns) in C.
  pose proof (wd_av aw dw align ns i NS t) as V. change (dm_av (st t) = sl_loaded (slot_at (st t) (dm_cur (st t)))) in V. rewrite V in A.
  destruct (wd_stays aw dw align ns i NS t (S t) (dm_cur (st t)) ltac:(lia) C eq_refl A) as [C2 L2].
  { intros q Q. replace q with t by lia. split; [exact D|]. unfold unloads. destruct (dmi_sw (i t)) as [|j v|j v] eqn:E; try reflexivity.
    pose proof (POL t j v E) as P. destruct (Nat.eqb_spec j (dm_cur (st t))) as [->|]; [congruence|reflexivity]. }
  pose proof (wd_av aw dw align ns i NS (S t)) as V2. change (dm_av (st (S t)) = sl_loaded (slot_at (st (S t)) (dm_cur (st (S t))))) in V2. rewrite V2.
  change (dm_cur (st (S t)) = dm_cur (st t)) in C2. rewrite C2. exact L2.
Qed.

Lemma by_count : forall u d, d < ns -> forall n, (forall t, u <= t <= u + n -> sl_loaded (slot_at (st t) d) = true) ->
  let C := occurrences (fun t => dm_done (st t) (i t)) u n in
  let L := occurrences (fun t => loads d (dmi_sw (i t))) u n in
  C + held (firstn d (dm_slots (st (u + n)))) <= held (firstn d (dm_slots (st u))) + L + (if dm_cur (st (u + n)) <=? d then 1 else 0).
Proof.
  intros u d DN. induction n as [|n IH]; intros H.
  { rewrite Nat.add_0_r. cbn [occurrences]. lia. }
  cbv zeta in *. specialize (IH ltac:(intros t T; apply H; lia)). replace (S n) with (n + 1) by lia. rewrite !occ_app. cbn [occurrences]. rewrite !Nat.add_0_r.
  set (C := occurrences (fun t => dm_done (st t) (i t)) u n) in *. set (L := occurrences (fun t => loads d (dmi_sw (i t))) u n) in *.
  set (t := u + n) in *. replace (u + (n + 1)) with (S t) by lia.
  pose proof (H t ltac:(lia)) as LT. pose proof (H (S t) ltac:(lia)) as LS.
  pose proof (pm_len aw dw align ns i t) as LEN. change (length (dm_slots (st t)) = ns) in LEN.
  set (l := firstn d (dm_slots (st t))) in *. assert (LL : length l = d) by (unfold l; rewrite firstn_length, LEN; lia).
  assert (E : firstn d (dm_slots (st (S t))) = slots_step aw align 0 l (dm_cur (st t)) (dm_done (st t) (i t)) (dm_addr (st t)) (dmi_sw (i t))) by apply firstn_step.
  rewrite E. clear E.
  pose proof (sl_step aw align l 0 (dm_cur (st t)) (dm_done (st t) (i t)) (dm_addr (st t)) (dmi_sw (i t))) as S1.
  pose proof (sl_cur aw align l 0 (dm_cur (st t)) (dm_done (st t) (i t)) (dm_addr (st t)) (dmi_sw (i t))) as S2.
  pose proof (load_sum l 0 (dm_cur (st t)) (dmi_sw (i t))) as S3.
  assert (LD : match dmi_sw (i t) with SwStatus j v => b2n ((0 <=? j) && (j <? 0 + length l) && Z.odd v) | _ => 0 end = (if loads d (dmi_sw (i t)) then 1 else 0)).
  { unfold loads. rewrite LL. destruct (dmi_sw (i t)); reflexivity. }
  rewrite LD in S3. set (l' := slots_step aw align 0 l (dm_cur (st t)) (dm_done (st t) (i t)) (dm_addr (st t)) (dmi_sw (i t))) in *.
  assert (LW : lowest (dm_slots (st t)) 0 (dm_cur (st t)) <= d) by (apply (lowest_le _ 0); [rewrite LEN; exact DN|exact LT]).
  assert (CUR : dm_cur (st (S t)) = if negb (dm_av (st t)) || dm_done (st t) (i t) then lowest (dm_slots (st t)) 0 (dm_cur (st t)) else dm_cur (st t)) by reflexivity.
  destruct (dm_done (st t) (i t)) eqn:D.
  - rewrite orb_true_r in CUR. rewrite CUR, (proj2 (Nat.leb_le _ _) LW).
    destruct (Nat.leb_spec (dm_cur (st t)) d) as [G|G].
    + assert (AV : dm_av (st t) = true) by (apply by_av; unfold dm_done in D; destruct (dm_fsm (st t)); discriminate).
      assert (G2 : dm_cur (st t) < d).
      { destruct (Nat.eq_dec (dm_cur (st t)) d) as [E|]; [exfalso|lia].
        assert (UT : InDmaProps.untouched i d t \/ exists v, dmi_sw (i t) = SwAddr d v).
        { unfold InDmaProps.untouched. destruct (dmi_sw (i t)) as [|j v|j v] eqn:W; [left; exact I| |].
          - left. intros ->. pose proof (POL t d v W). congruence.
          - destruct (Nat.eq_dec j d) as [->|]; [right; exists v; reflexivity|left; assumption]. }
        pose proof (wd_slot aw dw align ns i t d DN) as W. change (slot_at (st (S t)) d = slot_step aw align d (slot_at (st t) d) (dm_done (st t) (i t) && Nat.eqb (dm_cur (st t)) d) (dm_addr (st t)) (dmi_sw (i t))) in W.
        rewrite W, D, E, Nat.eqb_refl in LS. cbn [andb] in LS. unfold slot_step in LS.
        destruct UT as [UT|[v UT]].
        - unfold InDmaProps.untouched in UT. destruct (dmi_sw (i t)) as [|j v|j v]; try (apply Nat.eqb_neq in UT; rewrite UT in LS); discriminate.
        - rewrite UT, Nat.eqb_refl in LS. discriminate. }
      pose proof (wd_av aw dw align ns i NS t) as V. change (dm_av (st t) = sl_loaded (slot_at (st t) (dm_cur (st t)))) in V.
      assert (HA : held_at 0 l (dm_cur (st t)) = 1).
      { rewrite held_nth by (rewrite LL; lia). rewrite Nat.sub_0_r. unfold l. rewrite nth_firstn_lt by exact G2. unfold slot_at in V. rewrite <- V, AV. reflexivity. }
      lia.
    + assert (HA : held_at 0 l (dm_cur (st t)) = 0).
      { clear - LL G. assert (Q : forall l k c, k + length l <= c -> held_at k l c = 0).
        { induction l0 as [|s l0 IH]; intros k c K; [reflexivity|]. cbn [held_at length] in *. destruct (Nat.eqb_spec c k); [lia|]. apply IH. lia. }
        apply Q. lia. }
      lia.
  - rewrite orb_false_r in CUR. assert (HL : held l' <= held l + (if loads d (dmi_sw (i t)) then 1 else 0)) by lia.
    destruct (Nat.leb_spec (dm_cur (st t)) d) as [G|G]; destruct (Nat.leb_spec (dm_cur (st (S t))) d) as [G2|G2]; try lia.
    exfalso. destruct (dm_av (st t)); cbn [negb] in CUR; lia.
Qed.
End Bypass.

(** C153.  Software never writes the status of a loaded slot.  While slot [d] is loaded, from clock [u] to clock [u + n], the number of captures that end is at
    most one (the one under way), plus the slots with lower numbers that were loaded at [u], plus the loads of slots with lower numbers since. *)
Theorem C153_bypass : forall aw dw align ns i, 1 <= ns ->
  let st t := dma_run aw dw align (dma_init ns) i t in
  (forall t k v, dmi_sw (i t) = SwStatus k v -> sl_loaded (slot_at (st t) k) = false) ->
  forall u d n, d < ns -> (forall t, u <= t <= u + n -> sl_loaded (slot_at (st t) d) = true) ->
  occurrences (fun t => dm_done (st t) (i t)) u n <= 1 + loaded_below (st u) d + occurrences (fun t => loads d (dmi_sw (i t))) u n.
Proof.
  intros aw dw align ns i NS st POL u d n DN H. assert (B : occurrences (fun t => dm_done (st t) (i t)) u n + held (firstn d (dm_slots (st (u + n)))) <=
    held (firstn d (dm_slots (st u))) + occurrences (fun t => loads d (dmi_sw (i t))) u n + (if dm_cur (st (u + n)) <=? d then 1 else 0))
    by exact (by_count aw dw align ns i NS POL u d DN n H).
  assert (Q : held (firstn d (dm_slots (st u))) = loaded_below (st u) d) by (apply held_count; unfold st; rewrite pm_len; lia). rewrite Q in B.
  destruct (dm_cur (st (u + n)) <=? d); lia.
Qed.
Print Assumptions C153_bypass.
(** So a slot is filled as soon as more captures than that have ended. *)
Theorem C153_served : forall aw dw align ns i, 1 <= ns ->
  let st t := dma_run aw dw align (dma_init ns) i t in
  (forall t k v, dmi_sw (i t) = SwStatus k v -> sl_loaded (slot_at (st t) k) = false) ->
  forall u d n, d < ns -> sl_loaded (slot_at (st u) d) = true ->
  1 + loaded_below (st u) d + occurrences (fun t => loads d (dmi_sw (i t))) u n < occurrences (fun t => dm_done (st t) (i t)) u n ->
  exists z, u < z <= u + n /\ (forall t, u <= t < z -> sl_loaded (slot_at (st t) d) = true) /\ sl_status (slot_at (st z) d) = 2%Z.
Proof.
  intros aw dw align ns i NS st POL u d n DN LU B.
  assert (F : (forall t, u <= t <= u + n -> sl_loaded (slot_at (st t) d) = true) \/
    exists z, u < z <= u + n /\ (forall t, u <= t < z -> sl_loaded (slot_at (st t) d) = true) /\ sl_loaded (slot_at (st z) d) = false).
  { clear B. induction n as [|n IH]; [left; intros t T; replace t with u by lia; exact LU|]. destruct IH as [IH|(z & Z1 & Z2 & Z3)].
    - destruct (sl_loaded (slot_at (st (u + S n)) d)) eqn:Q.
      + left. intros t T. destruct (Nat.eq_dec t (u + S n)) as [->|]; [exact Q|apply IH; lia].
      + right. exists (u + S n). split; [lia|]. split; [intros t T; apply IH; lia|exact Q].
    - right. exists z. split; [lia|]. split; assumption. }
  destruct F as [F|(z & Z1 & Z2 & Z3)].
  { pose proof (C153_bypass aw dw align ns i NS POL u d n DN F) as X. cbv zeta in X. fold st in X. exfalso. unfold st in *. lia. }
  exists z. split; [exact Z1|]. split; [exact Z2|]. destruct z as [|z]; [lia|].
  pose proof (Z2 z ltac:(lia)) as L. pose proof (wd_slot aw dw align ns i z d DN) as W.
  change (slot_at (st (S z)) d = slot_step aw align d (slot_at (st z) d) (dm_done (st z) (i z) && Nat.eqb (dm_cur (st z)) d) (dm_addr (st z)) (dmi_sw (i z))) in W.
  rewrite W in *. unfold slot_step in *. pose proof (POL z) as P. destruct (dmi_sw (i z)) as [|j v|j v].
  - destruct (dm_done (st z) (i z) && Nat.eqb (dm_cur (st z)) d); [reflexivity|congruence].
  - specialize (P j v eq_refl). destruct (Nat.eqb_spec j d) as [->|]; [congruence|].
    destruct (dm_done (st z) (i z) && Nat.eqb (dm_cur (st z)) d); [reflexivity|congruence].
  - destruct (Nat.eqb j d), (dm_done (st z) (i z) && Nat.eqb (dm_cur (st z)) d); try reflexivity; unfold sl_loaded in *; cbn [sl_status] in *; congruence.
Qed.
Print Assumptions C153_served.

(** The bound is reached: four slots; while slot 3 is filled, slots 1 and 2 are loaded; slot 0 is loaded while slot 1 is filled, slot 1 while slot 0 is filled.
    Slot 2 waits for four captures: slots 3, 1, 0, 1. *)
Definition ex_bypass (t : nat) : dma_in :=
  {| dmi_valid := true; dmi_sof := true; dmi_px := Z.of_nat t; dmi_ready := negb (t mod 3 =? 0); dmi_wbusy := (t mod 4 =? 1); dmi_size := 64%Z;
     dmi_sw := match t with 2 => SwStatus 3 1 | 5 => SwStatus 1 1 | 6 => SwStatus 2 1 | 15 => SwStatus 0 1 | 24 => SwStatus 1 1 | _ => SwNone end |}.
Example ex_bypass_polite : forall t k v, dmi_sw (ex_bypass t) = SwStatus k v -> sl_loaded (slot_at (dma_run 25 128 4 (dma_init 4) ex_bypass t) k) = false.
Proof.
  intros t k v H. cbn [dmi_sw ex_bypass] in H. do 25 (destruct t as [|t]; [try discriminate; injection H as <- <-; vm_compute; reflexivity|]). discriminate.
Qed.
Example ex_bypass_reached : (forall t, 7 <= t <= 7 + 37 -> sl_loaded (slot_at (dma_run 25 128 4 (dma_init 4) ex_bypass t) 2) = true) /\
  occurrences (fun t => dm_done (dma_run 25 128 4 (dma_init 4) ex_bypass t) (ex_bypass t)) 7 37 = 4 /\ loaded_below (dma_run 25 128 4 (dma_init 4) ex_bypass 7) 2 = 1 /\
  occurrences (fun t => loads 2 (dmi_sw (ex_bypass t))) 7 37 = 2.
Proof.
  split; [|vm_compute; repeat split]. intros t T.
  assert (A : forallb (fun t => sl_loaded (slot_at (dma_run 25 128 4 (dma_init 4) ex_bypass t) 2)) (seq 7 38) = true) by (vm_compute; reflexivity).
  rewrite forallb_forall in A. apply A. apply in_seq. lia.
Qed.
Example ex_bypass_served : exists z, 7 < z <= 7 + 38 /\ sl_status (slot_at (dma_run 25 128 4 (dma_init 4) ex_bypass z) 2) = 2%Z.
Proof.
  assert (L : sl_loaded (slot_at (dma_run 25 128 4 (dma_init 4) ex_bypass 7) 2) = true) by (vm_compute; reflexivity).
  assert (B : 1 + loaded_below (dma_run 25 128 4 (dma_init 4) ex_bypass 7) 2 + occurrences (fun t => loads 2 (dmi_sw (ex_bypass t))) 7 38 < occurrences (fun t => dm_done (dma_run 25 128 4 (dma_init 4) ex_bypass t) (ex_bypass t)) 7 38)
    by (apply Nat.ltb_lt; vm_compute; reflexivity).
  destruct (C153_served 25 128 4 4 ex_bypass ltac:(lia) ex_bypass_polite 7 2 38 ltac:(lia) L B) as (z & Z1 & _ & Z2). exists z. split; assumption.
Qed.
