(** C100: the receiver's interrupt. *)
From Coq Require Import ZArith List Bool Lia Arith.
From Verif Require Import Hdl Trace CdcProofs AnalysisModel FrameProofs FrameProps InDmaModel InDmaProofs InDmaProps FifoModel FifoProofs FifoProps
  CaptureModel CaptureProofs CaptureProps CaptureRateProofs CaptureLiveProofs CaptureLiveProps FairProofs FairProps IrqModel.
Import ListNotations.
Open Scope nat_scope.

Lemma irq_spec : forall en l k, ev_irq en l k = true <-> exists j, j < length l /\ sl_event (nth j l slot0) = true /\ Z.testbit en (k + Z.of_nat j) = true.
Proof.
  intros en. induction l as [|s l IH]; intros k; cbn [ev_irq length].
  - split; [discriminate|intros (j & J & _); lia].
  - rewrite orb_true_iff, andb_true_iff, IH. split.
    + intros [[A B] | (j & J & A & B)].
      * exists 0. rewrite Z.add_0_r. split; [lia|auto].
      * exists (S j). split; [lia|]. split; [exact A|]. replace (k + Z.of_nat (S j))%Z with (k + 1 + Z.of_nat j)%Z by lia. exact B.
    + intros ([|j] & J & A & B).
      * left. rewrite Z.add_0_r in B. auto.
      * right. exists j. split; [lia|]. split; [exact A|]. replace (k + 1 + Z.of_nat j)%Z with (k + Z.of_nat (S j))%Z by lia. exact B.
Qed.
(** The pending register read by software: bit [j] tells whether slot [j] is filled. *)
Lemma pending_bits : forall l k j, (0 <= k)%Z -> (0 <= j)%Z -> Z.testbit (ev_pending l k) (k + j) = sl_event (nth (Z.to_nat j) l slot0) /\
  (ev_pending l k mod 2 ^ k = 0)%Z.
Proof.
  induction l as [|s l IH]; intros k j K J; cbn [ev_pending].
  - rewrite Z.bits_0, Z.mod_0_l by (apply Z.pow_nonzero; lia). split; [|reflexivity]. destruct (Z.to_nat j); reflexivity.
  - destruct (IH (k + 1)%Z 0%Z ltac:(lia) ltac:(lia)) as [_ M]. set (p := ev_pending l (k + 1)) in *.
    assert (P1 : (2 ^ (k + 1) = 2 * 2 ^ k)%Z) by (rewrite Z.pow_add_r by lia; lia).
    assert (PP : (0 < 2 ^ k)%Z) by (apply Z.pow_pos_nonneg; lia).
    pose proof (Z.div_mod p (2 ^ (k + 1)) ltac:(lia)) as D. rewrite M in D. set (q := (p / 2 ^ (k + 1))%Z) in *.
    assert (V : ((if sl_event s then 2 ^ k else 0) + p = ((if sl_event s then 1 else 0) + 2 * q) * 2 ^ k)%Z) by (destruct (sl_event s); rewrite D, P1; ring).
    split; [|rewrite V; apply Z.mod_mul; lia]. rewrite V. rewrite <- Z.shiftl_mul_pow2 by lia. rewrite Z.shiftl_spec by lia. replace (k + j - k)%Z with j by lia.
    destruct (Z.eq_dec j 0) as [->|NJ].
    + cbn [Z.to_nat nth]. rewrite Z.bit0_odd, Z.odd_add_mul_2. destruct (sl_event s); reflexivity.
    + replace (Z.to_nat j) with (S (Z.to_nat (j - 1))) by lia. cbn [nth]. destruct (IH (k + 1)%Z (j - 1)%Z ltac:(lia) ltac:(lia)) as [B _]. rewrite <- B. fold p.
      replace (k + 1 + (j - 1))%Z with (k + j)%Z by lia. 
      replace p with (Z.shiftl (2 * q) k) by (rewrite Z.shiftl_mul_pow2 by lia; rewrite D, P1; ring).
      rewrite Z.shiftl_spec by lia. replace (k + j - k)%Z with (Z.succ (j - 1)) by lia.
      rewrite Z.double_bits_succ. transitivity (Z.testbit ((if sl_event s then 1 else 0) + 2 * q) (Z.succ (j - 1))); [f_equal; lia|].
      destruct (sl_event s).
      * rewrite (Z.add_comm 1). apply Z.testbit_odd_succ. lia.
      * rewrite Z.add_0_l. apply Z.double_bits_succ.
Qed.

Section Run.
Variables (n : Z) (F : nat) (lw aw dw align : Z) (mem : list (bool * list Z)) (ra : Z) (ns : nat) (i : nat -> cap_in).
Let st (t : nat) : cap_st := cap_run n F lw aw dw align mem ra (dma_init ns) i t.
Let status t j := slot_status n F lw aw dw align mem ra ns i t j.

(** The interrupt line at instant [t]; [en t] is the enable register. *)
Definition irq (en : nat -> Z) (t : nat) : bool := ev_irq (en t) (dm_slots (cap_dma (cap_run n F lw aw dw align mem ra (dma_init ns) i t))) 0.
Definition pending (t : nat) : Z := ev_pending (dm_slots (cap_dma (cap_run n F lw aw dw align mem ra (dma_init ns) i t))) 0.
(** Software writes the status register of slot [j] in a clock. *)
Definition writes_status (j t : nat) : bool :=
  cap_sys (i t) && match cap_sw (i t) with SwStatus k _ => Nat.eqb k j | _ => false end.

Lemma irq_level : forall en t, irq en t = true <-> exists j, j < ns /\ Z.testbit (status t j) 1 = true /\ Z.testbit (en t) (Z.of_nat j) = true.
Proof.
  intros en t. unfold irq. rewrite irq_spec. fold (st t). unfold st. rewrite slots_count. split; intros (j & J & A & B); exists j; (split; [exact J|]); (split; [exact A|exact B]).
Qed.

Lemma status_S : forall t j, j < ns -> writes_status j t = false -> status (S t) j = status t j \/ status (S t) j = 2%Z.
Proof.
  intros t j J W. unfold status, slot_status. rewrite (c_dma_step n F lw aw dw align mem ra (dma_init ns) i t). unfold writes_status in W. change (c_sys i t) with (cap_sys (i t)).
  destruct (cap_sys (i t)); [|left; reflexivity]. cbn [andb] in W. unfold dma_step; cbn [dm_slots].
  rewrite slots_nth by (rewrite slots_count; exact J). rewrite Nat.add_0_l. change (dmi_sw (c_din n F lw aw dw align mem ra (dma_init ns) i t)) with (cap_sw (i t)).
  unfold slot_step. destruct (cap_sw (i t)) as [|k v|k v].
  - destruct (_ && _); [right|left]; reflexivity.
  - rewrite W. destruct (_ && _); [right|left]; reflexivity.
  - destruct (Nat.eqb k j), (_ && _); cbn [sl_status]; auto.
Qed.
Lemma status_range : forall t j, (0 <= status t j < 4)%Z.
Proof.
  induction t as [|t IH]; intros j.
  - unfold status, slot_status. cbn [cap_run at_ cap_dma dma_init dm_slots].
    destruct (nth_in_or_default j (repeat slot0 ns) slot0) as [G | G]; [apply repeat_spec in G|]; rewrite G; cbn; lia.
  - destruct (Nat.lt_ge_cases j ns) as [J|J].
    + destruct (writes_status j t) eqn:W.
      * unfold status, slot_status. rewrite (c_dma_step n F lw aw dw align mem ra (dma_init ns) i t). change (c_sys i t) with (cap_sys (i t)). unfold writes_status in W. apply andb_prop in W as [Q W].
        rewrite Q. unfold dma_step; cbn [dm_slots]. rewrite slots_nth by (rewrite slots_count; exact J). rewrite Nat.add_0_l.
        change (dmi_sw (c_din n F lw aw dw align mem ra (dma_init ns) i t)) with (cap_sw (i t)). destruct (cap_sw (i t)) as [|k v|k v]; try discriminate.
        unfold slot_step. rewrite W. cbn [sl_status]. unfold trunc. apply (Z.mod_pos_bound v 4). lia.
      * destruct (status_S t j J W) as [-> | ->]; [apply IH|lia].
    + unfold status, slot_status. rewrite nth_overflow by (rewrite slots_count; exact J). cbn. lia.
Qed.
Lemma event_stays : forall j z, j < ns -> Z.testbit (status z j) 1 = true -> forall t, z <= t -> (forall u, z <= u < t -> writes_status j u = false) ->
  Z.testbit (status t j) 1 = true.
Proof.
  intros j z J H t T. induction T as [|t T IH]; intros W; [exact H|]. specialize (IH ltac:(intros; apply W; lia)).
  destruct (status_S t j J (W t ltac:(lia))) as [-> | ->]; [exact IH|reflexivity].
Qed.
(** If software never sets bit 1 itself, it has been set by the end of a capture. *)
Lemma event_from : (forall t j v, cap_sys (i t) = true -> cap_sw (i t) = SwStatus j v -> Z.testbit v 1 = false) ->
  forall j, j < ns -> forall t, Z.testbit (status t j) 1 = true ->
  exists z, z < t /\ dm_done (cap_dma (st z)) (c_din n F lw aw dw align mem ra (dma_init ns) i z) = true /\ c_sys i z = true /\ dm_cur (cap_dma (st z)) = j /\
  status (S z) j = 2%Z /\ forall u, z <= u < t -> writes_status j u = false.
Proof.
  intros HV j J. induction t as [|t IH]; intros H.
  - exfalso. unfold status, slot_status in H. cbn [cap_run at_ cap_dma dma_init dm_slots] in H.
    destruct (nth_in_or_default j (repeat slot0 ns) slot0) as [G | G]; [apply repeat_spec in G|]; rewrite G in H; discriminate.
  - assert (ST : status (S t) j = sl_status (if c_sys i t then slot_step aw align j (nth j (dm_slots (cap_dma (st t))) slot0)
        (dm_done (cap_dma (st t)) (c_din n F lw aw dw align mem ra (dma_init ns) i t) && Nat.eqb (dm_cur (cap_dma (st t))) j) (dm_addr (cap_dma (st t))) (cap_sw (i t))
        else nth j (dm_slots (cap_dma (st t))) slot0)).
    { unfold status, slot_status. rewrite (c_dma_step n F lw aw dw align mem ra (dma_init ns) i t). fold (st t). destruct (c_sys i t); [|reflexivity].
      unfold dma_step; cbn [dm_slots]. rewrite slots_nth by (unfold st; rewrite slots_count; exact J). reflexivity. }
    destruct (writes_status j t) eqn:W.
    + exfalso. unfold writes_status in W. apply andb_prop in W as [Q W]. destruct (cap_sw (i t)) as [|k v|k v] eqn:SW; try discriminate. apply Nat.eqb_eq in W. subst k.
      change (c_sys i t) with (cap_sys (i t)) in ST. rewrite Q in ST. unfold slot_step in ST. rewrite Nat.eqb_refl in ST. cbn [sl_status] in ST. rewrite ST in H.
      unfold trunc in H. rewrite Z.mod_pow2_bits_low in H by lia. rewrite (HV t j v Q SW) in H. discriminate.
    + destruct (c_sys i t && (dm_done (cap_dma (st t)) (c_din n F lw aw dw align mem ra (dma_init ns) i t) && Nat.eqb (dm_cur (cap_dma (st t))) j)) eqn:D.
      * apply andb_prop in D as [Q D]. rewrite Q, D in ST. apply andb_prop in D as [D C]. apply Nat.eqb_eq in C.
        exists t. split; [lia|]. split; [exact D|]. split; [exact Q|]. split; [exact C|].
        split; [|intros u U; replace u with t by lia; exact W]. rewrite ST. unfold writes_status in W. change (cap_sys (i t)) with (c_sys i t) in W. rewrite Q in W. cbn [andb] in W.
        unfold slot_step. destruct (cap_sw (i t)) as [|k v|k v]; [reflexivity|rewrite W; reflexivity|destruct (Nat.eqb k j); reflexivity].
      * assert (SS : status (S t) j = status t j).
        { rewrite ST. change (status t j) with (sl_status (nth j (dm_slots (cap_dma (st t))) slot0)). unfold writes_status in W. change (cap_sys (i t)) with (c_sys i t) in W.
          destruct (c_sys i t); [|reflexivity]. cbn [andb] in W, D. rewrite D. unfold slot_step.
          destruct (cap_sw (i t)) as [|k v|k v]; [reflexivity|rewrite W; reflexivity|destruct (Nat.eqb k j); reflexivity]. }
        rewrite SS in H. destruct (IH H) as (z & Z1 & Z2 & Z3 & Z4 & Z5 & Z6). exists z. split; [lia|]. split; [exact Z2|]. split; [exact Z3|]. split; [exact Z4|]. split; [exact Z5|].
        intros u U. destruct (Nat.eq_dec u t) as [->|]; [exact W|apply Z6; lia].
Qed.
End Run.

(** The interrupt line is high exactly while a slot whose interrupt is enabled is
    marked as filled; the pending register shows the filled slots.  This is so whatever
    software writes to the pending register: interrupts are acknowledged by writing
    the status registers of the slots. *)
Theorem C100_irq_level : forall n F lw aw dw align mem ra ns i en t,
  (irq n F lw aw dw align mem ra ns i en t = true <->
   exists j, j < ns /\ Z.testbit (slot_status n F lw aw dw align mem ra ns i t j) 1 = true /\ Z.testbit (en t) (Z.of_nat j) = true) /\
  (forall j, Z.testbit (pending n F lw aw dw align mem ra ns i t) (Z.of_nat j) = Z.testbit (slot_status n F lw aw dw align mem ra ns i t j) 1).
Proof.
  intros. split; [apply irq_level|]. intros j. unfold pending. destruct (pending_bits (dm_slots (cap_dma (cap_run n F lw aw dw align mem ra (dma_init ns) i t))) 0 (Z.of_nat j) ltac:(lia) ltac:(lia)) as [A _].
  rewrite Z.add_0_l in A. rewrite A, Nat2Z.id. reflexivity.
Qed.

(** Writing the status register of a slot with bit 1 clear acknowledges its interrupt,
    even in the clock in which the capture ends. *)
Theorem C100_acknowledge : forall n F lw aw dw align mem ra ns i t c v, c < ns ->
  cap_sys (i t) = true -> cap_sw (i t) = SwStatus c v -> Z.testbit v 1 = false ->
  Z.testbit (pending n F lw aw dw align mem ra ns i (S t)) (Z.of_nat c) = false /\
  (forall en, (forall j, j < ns -> j <> c -> Z.testbit (en (S t)) (Z.of_nat j) = true -> slot_status n F lw aw dw align mem ra ns i (S t) j <> 2%Z /\
     slot_status n F lw aw dw align mem ra ns i (S t) j <> 3%Z) -> irq n F lw aw dw align mem ra ns i en (S t) = false).
Proof.
  intros n F lw aw dw align mem ra ns i t c v C Q SW V.
  assert (H : Z.testbit (slot_status n F lw aw dw align mem ra ns i (S t) c) 1 = false).
  { unfold slot_status. rewrite (c_dma_step n F lw aw dw align mem ra (dma_init ns) i t). change (c_sys i t) with (cap_sys (i t)). rewrite Q. unfold dma_step; cbn [dm_slots].
    rewrite slots_nth by (rewrite slots_count; exact C). rewrite Nat.add_0_l. change (dmi_sw (c_din n F lw aw dw align mem ra (dma_init ns) i t)) with (cap_sw (i t)). rewrite SW.
    unfold slot_step. rewrite Nat.eqb_refl. cbn [sl_status]. unfold trunc. rewrite Z.mod_pow2_bits_low by lia. exact V. }
  split; [rewrite (proj2 (C100_irq_level n F lw aw dw align mem ra ns i (fun _ => 0%Z) (S t))); exact H|].
  intros en HE. destruct (irq n F lw aw dw align mem ra ns i en (S t)) eqn:I; [|reflexivity]. exfalso. apply irq_level in I as (j & J & A & B).
  destruct (Nat.eq_dec j c) as [->|NE]; [congruence|]. destruct (HE j J NE B) as [H2 H3]. pose proof (status_range n F lw aw dw align mem ra ns i (S t) j) as R.
  assert (G : slot_status n F lw aw dw align mem ra ns i (S t) j = 0%Z \/ slot_status n F lw aw dw align mem ra ns i (S t) j = 1%Z) by lia.
  destruct G as [G|G]; rewrite G in A; discriminate.
Qed.

(** A load of slot 0 or 1 with its interrupt enabled is followed by an interrupt, which
    stays until software writes the slot's status register or disables it. *)
Theorem C100_irq_comes : forall n F lw aw dw align mem ra ns i X K E B b m words T0,
  streaming n F lw aw dw align mem ra ns i X K E B b m words T0 ->
  forall w c v en, c < 2 -> c < ns -> T0 <= w -> B + 2 * (E + K) + 10 <= occurrences (fun t => cap_sys (i t)) T0 (w - T0) ->
  cap_sys (i w) = true -> cap_sw (i w) = SwStatus c v -> Z.odd v = true -> (forall t, w < t -> Z.testbit (en t) (Z.of_nat c) = true) ->
  exists z, w < z /\ forall t, z <= t -> (forall u, z <= u < t -> writes_status i c u = false) -> irq n F lw aw dw align mem ra ns i en t = true.
Proof.
  intros n F lw aw dw align mem ra ns i X K E B b m words T0 H w c v en C2 C TW HW Q SW V HE.
  destruct (C98_slot_served n F lw aw dw align mem ra ns i X K E B b m words T0 H w c v C2 C TW HW Q SW V) as (x & z & A & _ & G & _).
  exists z. split; [lia|]. intros t T W. apply irq_level. exists c. split; [exact C|]. split; [|apply HE; lia].
  apply (event_stays n F lw aw dw align mem ra ns i c z C); [rewrite G; reflexivity|exact T|exact W].
Qed.

(** No interrupt without a capture: if software itself never marks a slot as filled and
    leaves loaded slots alone, then at every interrupt some enabled slot has turned from
    loaded to filled since software last wrote its status register. *)
Theorem C100_irq_means_captured : forall n F lw aw dw align mem ra ns i, (0 < aw)%Z -> 1 <= ns ->
  (forall t j v, cap_sys (i t) = true -> cap_sw (i t) = SwStatus j v -> Z.testbit v 1 = false) ->
  (forall t j, cap_sys (i t) = true -> Z.odd (slot_status n F lw aw dw align mem ra ns i t j) = true ->
    match cap_sw (i t) with SwNone => True | SwStatus k _ => k <> j | SwAddr k _ => k <> j end) ->
  forall en t, irq n F lw aw dw align mem ra ns i en t = true ->
  exists j z, j < ns /\ Z.testbit (en t) (Z.of_nat j) = true /\ z < t /\
  Z.odd (slot_status n F lw aw dw align mem ra ns i z j) = true /\ slot_status n F lw aw dw align mem ra ns i (S z) j = 2%Z /\
  forall u, z <= u < t -> writes_status i j u = false.
Proof.
  intros n F lw aw dw align mem ra ns i Haw NS HV POL en t H. apply irq_level in H as (j & J & A & B).
  destruct (event_from n F lw aw dw align mem ra ns i HV j J t A) as (z & Z1 & Z2 & Z3 & Z4 & Z5 & Z6).
  exists j, z. split; [exact J|]. split; [exact B|]. split; [exact Z1|]. split; [|split; [exact Z5|exact Z6]].
  assert (LO : forall s, Z.odd (sl_status s) = sl_loaded s) by (intros s; unfold sl_loaded; symmetry; apply Z.bit0_odd).
  assert (P2 : forall t j, c_sys i t = true -> sl_loaded (nth j (dm_slots (cap_dma (cap_run n F lw aw dw align mem ra (dma_init ns) i t))) slot0) = true -> untouched (cap_sw (i t)) j).
  { intros x k Q1 L. apply (POL x k Q1). unfold slot_status. rewrite LO. exact L. }
  destruct (fr_inv n F lw aw dw align mem ra ns i Haw NS P2 z) as [I _].
  unfold dm_done in Z2. destruct (dm_fsm (cap_dma (cap_run n F lw aw dw align mem ra (dma_init ns) i z))); try discriminate. specialize (I ltac:(discriminate)).
  unfold slot_status. rewrite LO. unfold dm_av in I. unfold dm_slot in I. rewrite slots_count in I. rewrite Z4 in I. replace (Nat.min j (ns - 1)) with j in I by lia. exact I.
Qed.

(** In the run of C99 with all interrupts enabled. *)
Example ex_irq : irq 4 2 32 8 64 3 (repeat fe_word0 16) 0 3 ex_starve_in (fun _ => 7%Z) 66 = false /\
  irq 4 2 32 8 64 3 (repeat fe_word0 16) 0 3 ex_starve_in (fun _ => 7%Z) 70 = true /\ pending 4 2 32 8 64 3 (repeat fe_word0 16) 0 3 ex_starve_in 70 = 1%Z.
Proof. vm_compute. repeat split. Qed.
Example ex_irq_hyp : forall t j v, cap_sys (ex_starve_in t) = true -> cap_sw (ex_starve_in t) = SwStatus j v -> Z.testbit v 1 = false.
Proof.
  intros t j v _. cbn [cap_sw ex_starve_in]. repeat match goal with |- context [Nat.eqb ?a ?b] => destruct (Nat.eqb a b) end; intros H; inversion H; reflexivity.
Qed.

Print Assumptions C100_irq_level.
Print Assumptions C100_irq_comes.
Print Assumptions C100_irq_means_captured.
Print Assumptions C100_acknowledge.
