(** C151: each time software loads a slot permits one capture at most, whatever software, stream and memory do. *)
From Coq Require Import ZArith List Bool Lia Arith.
From Verif Require Import Hdl Trace CdcProofs ChanSyncModel InDmaModel InDmaProps CaptureModel CaptureLiveProofs.
Import ListNotations.
Open Scope nat_scope.

(** Specification: software loads one of [ns] slots: it writes an odd value into its status register. *)
Definition loads (ns : nat) (w : sw) : bool := match w with SwStatus j v => (j <? ns) && Z.odd v | _ => false end.

Definition b2n (b : bool) : nat := if b then 1 else 0.
Fixpoint held (l : list slot) : nat := match l with [] => 0 | s :: r => b2n (sl_loaded s) + held r end.
Fixpoint held_at (k : nat) (l : list slot) (c : nat) : nat := match l with [] => 0 | s :: r => if Nat.eqb c k then b2n (sl_loaded s) else held_at (S k) r c end.
(** A load of a slot of [l], whose first slot has number [k], that is ([e] true) or is not slot [c]. *)
Fixpoint load_in (k : nat) (l : list slot) (c : nat) (e : bool) (w : sw) : nat :=
  match l with
  | [] => 0
  | _ :: r => match w with SwStatus j v => b2n (Nat.eqb j k && Z.odd v && Bool.eqb (Nat.eqb c k) e) | _ => 0 end + load_in (S k) r c e w
  end.

Lemma odd_trunc : forall v, Z.testbit (trunc 2 v) 0 = Z.odd v.
Proof. intros v. unfold trunc. rewrite Z.mod_pow2_bits_low by lia. apply Z.bit0_odd. Qed.
Lemma held_at_0 : forall l k c, c < k -> held_at k l c = 0.
Proof. induction l as [|s l IH]; intros k c C; [reflexivity|]. cbn [held_at]. destruct (Nat.eqb_spec c k); [lia|]. apply IH. lia. Qed.

Section Step.
Variables aw align : Z.
(** No slot number before [k] is marked. *)
Lemma sl_past : forall l k cur dn r w, cur < k -> held (slots_step aw align k l cur dn r w) <= held l + load_in k l cur false w.
Proof.
  induction l as [|s l IH]; intros k cur dn r w C; [cbn; lia|]. specialize (IH (S k) cur dn r w ltac:(lia)).
  cbn [slots_step held load_in]. destruct (Nat.eqb_spec cur k) as [G|G]; [lia|]. rewrite andb_false_r. unfold slot_step.
  destruct w as [|j v|j v].
  - lia.
  - destruct (Nat.eqb j k); cbn [andb b2n].
    + unfold sl_loaded at 1; cbn [sl_status]. rewrite odd_trunc. destruct (Z.odd v); cbn [b2n Bool.eqb andb]; lia.
    + lia.
  - destruct (Nat.eqb j k); [unfold sl_loaded at 1; cbn [sl_status]; fold (sl_loaded s)|]; lia.
Qed.
Lemma sl_step : forall l k cur dn r w,
  held (slots_step aw align k l cur dn r w) + held_at k l cur <= held l + held_at k (slots_step aw align k l cur dn r w) cur + load_in k l cur false w.
Proof.
  induction l as [|s l IH]; intros k cur dn r w; [cbn; lia|]. cbn [slots_step held held_at load_in].
  destruct (Nat.eqb_spec cur k) as [->|G].
  - pose proof (sl_past l (S k) k dn r w ltac:(lia)) as Q. destruct w as [|j v|j v]; lia.
  - specialize (IH (S k) cur dn r w). rewrite andb_false_r. unfold slot_step. destruct w as [|j v|j v].
    + lia.
    + destruct (Nat.eqb j k); cbn [andb b2n].
      * unfold sl_loaded at 1; cbn [sl_status]. rewrite odd_trunc. destruct (Z.odd v); cbn [b2n Bool.eqb andb]; lia.
      * lia.
    + destruct (Nat.eqb j k); [unfold sl_loaded at 1; cbn [sl_status]; fold (sl_loaded s)|]; lia.
Qed.
(** The slot in hand after a clock: loaded by software in this clock, or it was and no capture has ended. *)
Lemma sl_cur : forall l k cur dn r w, held_at k (slots_step aw align k l cur dn r w) cur <= (if dn then 0 else held_at k l cur) + load_in k l cur true w.
Proof.
  induction l as [|s l IH]; intros k cur dn r w; [cbn; lia|]. cbn [slots_step held_at load_in].
  destruct (Nat.eqb_spec cur k) as [->|G].
  - rewrite andb_true_r. unfold slot_step. destruct w as [|j v|j v].
    + destruct dn; [cbn; lia|lia].
    + destruct (Nat.eqb j k); cbn [andb b2n].
      * unfold sl_loaded at 1; cbn [sl_status]. rewrite odd_trunc. destruct (Z.odd v); cbn [b2n Bool.eqb andb]; lia.
      * destruct dn; [cbn; lia|lia].
    + destruct (Nat.eqb j k), dn; unfold sl_loaded at 1; cbn [sl_status]; try fold (sl_loaded s); cbn; lia.
  - specialize (IH (S k) cur dn r w). lia.
Qed.
End Step.
Lemma load_sum : forall l k c w, load_in k l c true w + load_in k l c false w <= match w with SwStatus j v => b2n ((k <=? j) && (j <? k + length l) && Z.odd v) | _ => 0 end.
Proof.
  induction l as [|s l IH]; intros k c w; [cbn; destruct w; lia|]. specialize (IH (S k) c w). cbn [load_in length]. destruct w as [|j v|j v]; try lia.
  destruct (Z.odd v); rewrite ?andb_true_r, ?andb_false_r in *; cbn [andb b2n] in *; [|lia].
  destruct (Nat.eqb_spec j k) as [->|G].
  - assert (Z0 : load_in (S k) l c true (SwStatus k v) + load_in (S k) l c false (SwStatus k v) <= 0).
    { destruct (Nat.leb_spec (S k) k); [lia|]. cbn in IH. lia. }
    rewrite (proj2 (Nat.leb_le k k)), (proj2 (Nat.ltb_lt k (k + S (length l)))) by lia. destruct (Nat.eqb c k); cbn; lia.
  - cbn [andb b2n]. destruct (Nat.leb_spec (S k) j), (Nat.ltb_spec j (S k + length l)), (Nat.leb_spec k j), (Nat.ltb_spec j (k + S (length l))); cbn [andb b2n] in *; lia.
Qed.
Lemma held_nth : forall l k c, k <= c < k + length l -> held_at k l c = b2n (sl_loaded (nth (c - k) l slot0)).
Proof.
  induction l as [|s l IH]; intros k c C; cbn [length] in C; [lia|]. cbn [held_at]. destruct (Nat.eqb_spec c k) as [->|G]; [rewrite Nat.sub_diag; reflexivity|].
  rewrite IH by lia. replace (c - k) with (S (c - S k)) by lia. reflexivity.
Qed.
Lemma sl_length : forall aw align l k cur dn r w, length (slots_step aw align k l cur dn r w) = length l.
Proof. intros aw align. induction l as [|s l IH]; intros; [reflexivity|]. cbn [slots_step length]. rewrite IH. reflexivity. Qed.
Lemma held_0 : forall ns, held (repeat slot0 ns) = 0.
Proof. induction ns as [|ns IH]; [reflexivity|]. cbn [repeat held]. rewrite IH. reflexivity. Qed.

Section Permit.
Variables (aw dw align : Z) (ns : nat) (i : nat -> dma_in).
Hypothesis NS : 1 <= ns.
Let st t := dma_run aw dw align (dma_init ns) i t.
Definition pm_start (t : nat) : bool := dm_start (st t) (i t).
Definition pm_done (t : nat) : bool := dm_done (st t) (i t).
Definition pm_word (t : nat) : bool := match dm_write dw (st t) (i t) with Some _ => true | None => false end.
Definition pm_load (t : nat) : bool := loads ns (dmi_sw (i t)).

Lemma pm_S : forall t, st (S t) = dma_step aw dw align (st t) (i t).
Proof. reflexivity. Qed.
Lemma pm_len : forall t, length (dm_slots (st t)) = ns.
Proof. induction t as [|t IH]; [apply repeat_length|]. rewrite pm_S. unfold dma_step; cbn [dm_slots]. rewrite sl_length. exact IH. Qed.
Lemma pm_cur : forall t, dm_cur (st t) < ns.
Proof.
  induction t as [|t IH]; [exact NS|]. rewrite pm_S. unfold dma_step; cbn [dm_cur].
  destruct (negb (dm_av (st t)) || dm_done (st t) (i t)); [|exact IH]. apply lowest_range; [exact IH|rewrite pm_len; lia].
Qed.
Lemma pm_av : forall t, held_at 0 (dm_slots (st t)) (dm_cur (st t)) = b2n (dm_av (st t)).
Proof.
  intros t. pose proof (pm_cur t). rewrite held_nth by (rewrite pm_len; lia). unfold dm_av, dm_slot. rewrite pm_len, Nat.sub_0_r.
  rewrite Nat.min_l by lia. reflexivity.
Qed.
Lemma occ_S : forall p t, occurrences p 0 (S t) = occurrences p 0 t + b2n (p t).
Proof. intros p t. replace (S t) with (t + 1) by lia. rewrite occ_app. cbn [occurrences Nat.add]. rewrite Nat.add_0_r. destruct (p t); reflexivity. Qed.

Lemma pm_inv : forall t, occurrences pm_start 0 t + held (dm_slots (st t)) <=
  occurrences pm_load 0 t + match dm_fsm (st t) with WAIT_SOF => 0 | _ => held_at 0 (dm_slots (st t)) (dm_cur (st t)) end.
Proof.
  induction t as [|t IH]; [unfold st, dma_run; cbn [at_ dma_init dm_slots]; rewrite held_0; cbn; lia|].
  rewrite !occ_S. set (A := occurrences pm_start 0 t) in *. set (B := occurrences pm_load 0 t) in *.
  pose proof (sl_step aw align (dm_slots (st t)) 0 (dm_cur (st t)) (dm_done (st t) (i t)) (dm_addr (st t)) (dmi_sw (i t))) as S1.
  pose proof (sl_cur aw align (dm_slots (st t)) 0 (dm_cur (st t)) (dm_done (st t) (i t)) (dm_addr (st t)) (dmi_sw (i t))) as S2.
  pose proof (load_sum (dm_slots (st t)) 0 (dm_cur (st t)) (dmi_sw (i t))) as S3.
  assert (LD : match dmi_sw (i t) with SwStatus j v => b2n ((0 <=? j) && (j <? 0 + length (dm_slots (st t))) && Z.odd v) | _ => 0 end = b2n (pm_load t)).
  { unfold pm_load, loads. destruct (dmi_sw (i t)) as [|j v|j v]; [reflexivity| |reflexivity]. rewrite pm_len. reflexivity. }
  rewrite LD in S3. pose proof (pm_av t) as AV. change (pm_start t) with (dm_start (st t) (i t)). rewrite (pm_S t).
  set (l' := slots_step aw align 0 (dm_slots (st t)) (dm_cur (st t)) (dm_done (st t) (i t)) (dm_addr (st t)) (dmi_sw (i t))) in *.
  change (dm_slots (dma_step aw dw align (st t) (i t))) with l'.
  change (dm_cur (dma_step aw dw align (st t) (i t))) with (if negb (dm_av (st t)) || dm_done (st t) (i t) then lowest (dm_slots (st t)) 0 (dm_cur (st t)) else dm_cur (st t)).
  unfold dma_step; cbn [dm_fsm]. unfold dm_start, dm_done in *. destruct (dm_fsm (st t)).
  - destruct (dm_av (st t)); cbn [negb orb andb b2n] in *.
    + destruct (dmi_sof (i t) && dmi_valid (i t)); cbn [b2n]; lia.
    + lia.
  - cbn [b2n]. destruct (dm_av (st t)); cbn [negb orb b2n] in *;
      destruct (match dm_write dw (st t) (i t) with Some _ => true | None => false end && (dm_left (st t) =? 1)%Z); lia.
  - cbn [b2n]. destruct (dmi_wbusy (i t)); cbn [negb] in *; [destruct (dm_av (st t)); cbn [negb orb b2n] in *; lia|]. destruct (dm_av (st t)); cbn [b2n] in *; lia.
Qed.
Lemma held_at_le : forall l k c, held_at k l c <= held l.
Proof. induction l as [|s l IH]; intros k c; [cbn; lia|]. cbn [held_at held]. specialize (IH (S k) c). destruct (Nat.eqb c k); lia. Qed.
Lemma pm_starts : forall t, occurrences pm_start 0 t <= occurrences pm_load 0 t.
Proof. intros t. pose proof (pm_inv t). pose proof (held_at_le (dm_slots (st t)) 0 (dm_cur (st t))). destruct (dm_fsm (st t)); lia. Qed.
Lemma pm_dones : forall t, occurrences pm_done 0 t + match dm_fsm (st t) with WAIT_SOF => 0 | _ => 1 end = occurrences pm_start 0 t.
Proof.
  induction t as [|t IH]; [reflexivity|]. rewrite !occ_S, <- IH. rewrite (pm_S t). unfold pm_start, pm_done, dma_step; cbn [dm_fsm].
  fold (st t). unfold dm_start, dm_done. destruct (dm_fsm (st t)).
  - destruct (dm_av (st t) && dmi_sof (i t) && dmi_valid (i t)); cbn [b2n]; lia.
  - destruct (match dm_write dw (st t) (i t) with Some _ => true | None => false end && (dm_left (st t) =? 1)%Z); cbn [b2n]; lia.
  - destruct (negb (dmi_wbusy (i t))); cbn [b2n]; lia.
Qed.
Lemma pm_words : forall m, 1 <= m -> (0 < aw)%Z -> (forall t, Z.of_nat m = size_words aw align (dmi_size (i t))) -> forall t,
  match dm_fsm (st t) with
  | TRANSFER => (1 <= dm_left (st t) <= Z.of_nat m)%Z /\ occurrences pm_word 0 t + Z.to_nat (dm_left (st t)) = m * occurrences pm_start 0 t
  | _ => occurrences pm_word 0 t = m * occurrences pm_start 0 t
  end.
Proof.
  intros m M Haw SZ. induction t as [|t IH]; [cbn; nia|]. rewrite !occ_S. set (WO := occurrences pm_word 0 t) in *. set (SO := occurrences pm_start 0 t) in *.
  change (pm_word t) with (match dm_write dw (st t) (i t) with Some _ => true | None => false end). change (pm_start t) with (dm_start (st t) (i t)). rewrite (pm_S t).
  unfold dma_step; cbn [dm_fsm dm_left]. unfold dm_write, dm_start, dm_done. destruct (dm_fsm (st t)) eqn:FS.
  - destruct (dm_av (st t) && dmi_sof (i t) && dmi_valid (i t)); cbn [b2n]; [|nia].
    assert (SL : slice align aw (dmi_size (i t)) = Z.of_nat m) by (rewrite (SZ t); reflexivity). rewrite SL, Nat2Z.id. split; nia.
  - destruct IH as [L1 L2]. destruct (dmi_valid (i t) && dmi_ready (i t)); cbn [andb b2n].
    + destruct (Z.eqb_spec (dm_left (st t)) 1) as [G|G]; [rewrite G in L2; change (Z.to_nat 1) with 1 in L2; nia|].
      assert (TR : trunc aw (dm_left (st t) - 1) = (dm_left (st t) - 1)%Z).
      { unfold trunc. apply Z.mod_small. pose proof (SZ t) as S1. unfold size_words in S1.
        pose proof (Z.mod_pos_bound (dmi_size (i t) / 2 ^ align) (2 ^ aw) ltac:(apply Z.pow_pos_nonneg; nia)). nia. }
      rewrite TR. split; [nia|]. nia.
    + split; [exact L1|nia].
  - destruct (negb (dmi_wbusy (i t))); cbn [b2n]; nia.
Qed.
End Permit.

(** C151.  From reset on, whatever software writes (into loaded slots, too), whatever stream and memory do: not more captures begin, not more slots are
    marked as filled than software has loaded slots; and if the frame size register stays at [m] words, not more than [m] words are written to memory per
    load. *)
Theorem C151_one_capture_per_load : forall aw dw align ns i, 1 <= ns -> forall t,
  let st u := dma_run aw dw align (dma_init ns) i u in
  let L := occurrences (fun u => loads ns (dmi_sw (i u))) 0 t in
  occurrences (fun u => dm_start (st u) (i u)) 0 t <= L /\
  occurrences (fun u => dm_done (st u) (i u)) 0 t <= L /\
  forall m, 1 <= m -> (0 < aw)%Z -> (forall u, Z.of_nat m = size_words aw align (dmi_size (i u))) ->
    occurrences (fun u => match dm_write dw (st u) (i u) with Some _ => true | None => false end) 0 t <= m * L.
Proof.
  intros aw dw align ns i NS t st L.
  pose proof (pm_starts aw dw align ns i NS t) as A. pose proof (pm_dones aw dw align ns i NS t) as B.
  change (occurrences (pm_load ns i) 0 t) with L in A.
  change (occurrences (fun u => dm_start (st u) (i u)) 0 t) with (occurrences (pm_start aw dw align ns i) 0 t).
  change (occurrences (fun u => dm_done (st u) (i u)) 0 t) with (occurrences (pm_done aw dw align ns i) 0 t).
  split; [exact A|]. split; [destruct (dm_fsm (dma_run aw dw align (dma_init ns) i t)); lia|].
  intros m M Haw SZ. pose proof (pm_words aw dw align ns i NS m M Haw SZ t) as W.
  change (occurrences (fun u => match dm_write dw (st u) (i u) with Some _ => true | None => false end) 0 t) with (occurrences (pm_word aw dw align ns i) 0 t).
  destruct (dm_fsm (dma_run aw dw align (dma_init ns) i t)); nia.
Qed.
Print Assumptions C151_one_capture_per_load.

(** The bounds are reached: software loads slot 1 at clock 2, slot 0 at clock 4, slot 1 again at clock 40; every word of the stream is marked as the first
    of a frame.  Three loads, three captures, three filled slots, three times four words.  With one more write, which unloads slot 1 at clock 9 in the
    middle of its capture, slot 0 is marked as filled by this capture and there are two captures only. *)
Definition ex_permit (unload : bool) (t : nat) : dma_in :=
  {| dmi_valid := true; dmi_sof := true; dmi_px := Z.of_nat t; dmi_ready := negb (t mod 3 =? 0); dmi_wbusy := (t mod 4 =? 1); dmi_size := 64%Z;
     dmi_sw := if t =? 2 then SwStatus 1 1 else if t =? 4 then SwStatus 0 3 else if (t =? 9) && unload then SwStatus 1 0 else if t =? 40 then SwStatus 1 5 else SwNone |}.
Example ex_permit_size : forall b t, Z.of_nat 4 = size_words 25 4 (dmi_size (ex_permit b t)).
Proof. reflexivity. Qed.
Example ex_permit_counts : forall b, let st u := dma_run 25 128 4 (dma_init 2) (ex_permit b) u in
  occurrences (fun u => loads 2 (dmi_sw (ex_permit b u))) 0 100 = 3 /\
  occurrences (fun u => dm_start (st u) (ex_permit b u)) 0 100 = (if b then 2 else 3) /\
  occurrences (fun u => dm_done (st u) (ex_permit b u)) 0 100 = (if b then 2 else 3) /\
  occurrences (fun u => match dm_write 128 (st u) (ex_permit b u) with Some _ => true | None => false end) 0 100 = (if b then 8 else 12).
Proof. intros [|]; vm_compute; repeat split. Qed.
