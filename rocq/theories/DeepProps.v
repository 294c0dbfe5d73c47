(** C150: with more slots software may be slower: every picture is stored if all slots are loaded at first and each is loaded again within
    [ns - 1] pictures' worth of sys clocks. *)
From Coq Require Import ZArith List Bool Lia Arith.
From Verif Require Import Hdl Trace CdcProofs TmdsSpec CharSyncProps ChanSyncModel HdmiProps AnalysisModel HdmiModel HdmiProofs HdmiRxModel HdmiRxProps FrameProofs FrameProps LinkModel LinkProps
  HdmiSrcSpec HdmiSrcProofs HdmiSrcProps InDmaModel InDmaProofs InDmaProps FifoModel FifoProofs FifoProps
  CaptureModel CaptureProofs CaptureProps CaptureRateProofs CaptureLiveProofs CaptureLiveProps CscModel CscSpec ChromaProofs YccPathModel YccPathProps YccLinkModel YccLinkProps HdmiSlotProps HdmiSlotYccProps FairProofs FairProps PictureOrderProps PictureSkipProps PictureFlowProps DriverProps HdmiVideoProps HdmiVideoYccProps EagerProps PromptProps.
Import ListNotations.
Open Scope nat_scope.

(** Software begins at instant [Tq].  At instant [Ts], before [m] sys clocks have passed, all slots are loaded; from then on no slot stays without
    being loaded for more than [D] sys clocks. *)
Record stocked (n : Z) (F : nat) (lw aw dw align : Z) (mem : list (bool * list Z)) (ra : Z) (ns : nat) (i : nat -> cap_in) (m Tq Ts D : nat) : Prop := {
  sk_before : forall t j v, t < Tq -> cap_sw (i t) <> SwStatus j v;
  sk_from : Tq <= Ts;
  sk_soon : occurrences (fun t => cap_sys (i t)) Tq (Ts - Tq) < m;
  sk_all : forall j, j < ns -> Z.odd (slot_status n F lw aw dw align mem ra ns i Ts j) = true;
  sk_loads : forall u t j, Ts <= u -> u <= t -> j < ns -> (forall v, u <= v <= t -> Z.odd (slot_status n F lw aw dw align mem ra ns i v j) = false) ->
    occurrences (fun t => cap_sys (i t)) u (t - u) <= D
}.

(** Distinct events of a list are counted. *)
Lemma occ_filter : forall p a k, occurrences p a k = length (filter p (seq a k)).
Proof.
  intros p a k. induction k as [|k IH]; [reflexivity|]. replace (S k) with (k + 1) by lia. rewrite occ_app, seq_app, filter_app, app_length, IH.
  cbn [occurrences seq filter]. rewrite Nat.add_0_r. destruct (p (a + k)); reflexivity.
Qed.
Lemma distinct_events : forall p a k L, NoDup L -> (forall t, In t L -> a <= t < a + k /\ p t = true) -> length L <= occurrences p a k.
Proof.
  intros p a k L ND H. rewrite occ_filter. apply NoDup_incl_length; [exact ND|]. intros t T. destruct (H t T) as [R P].
  apply filter_In. split; [apply in_seq; exact R|exact P].
Qed.
Lemma least_of : forall L : list nat, L <> [] -> exists t, In t L /\ forall u, In u L -> t <= u.
Proof.
  induction L as [|a L IH]; intros NE; [congruence|]. destruct L as [|b L].
  - exists a. split; [left; reflexivity|]. intros u [->|[]]. lia.
  - destruct IH as (t & T & M); [discriminate|]. destruct (Nat.le_gt_cases a t) as [G|G].
    + exists a. split; [left; reflexivity|]. intros u [->|U]; [lia|]. specialize (M u U). lia.
    + exists t. split; [right; exact T|]. intros u [->|U]; [lia|]. apply M. exact U.
Qed.
(** Of [k] distinct events, [k - 1] follow the first one. *)
Lemma later_events : forall p z L, L <> [] -> NoDup L -> (forall t, In t L -> t < z /\ p t = true) ->
  exists t, In t L /\ length L <= 1 + occurrences p (S t) (z - S t).
Proof.
  intros p z L NE ND H. destruct (least_of L NE) as (t & T & M). exists t. split; [exact T|].
  destruct (H t T) as [TZ PT]. pose proof (distinct_events p t (z - t) L ND) as Q.
  specialize (Q ltac:(intros u U; specialize (M u U); destruct (H u U); split; [lia|assumption])).
  replace (z - t) with (1 + (z - S t)) in Q by lia. rewrite occ_app in Q. replace (t + 1) with (S t) in Q by lia. cbn [occurrences] in Q.
  rewrite Nat.add_0_r, PT in Q. lia.
Qed.

Section Deep.
Variables (n : Z) (F : nat) (lw aw dw align : Z) (mem : list (bool * list Z)) (ra : Z) (ns : nat) (i : nat -> cap_in) (m T0 : nat).
Hypothesis NS : 1 <= ns.
Hypothesis M1 : 1 <= m.
Hypothesis Haw : (0 < aw)%Z.
Hypothesis SZ : forall t, T0 <= t -> Z.of_nat m = size_words aw align (cap_size (i t)).
Let st t := cap_run n F lw aw dw align mem ra (dma_init ns) i t.
Let dma t := cap_dma (st t).
Let din := c_din n F lw aw dw align mem ra (dma_init ns) i.
Let ld j t := Z.odd (slot_status n F lw aw dw align mem ra ns i t j).
Hypothesis POL : forall t j, cap_sys (i t) = true -> ld j t = true -> match cap_sw (i t) with SwNone => True | SwStatus k _ => k <> j | SwAddr k _ => k <> j end.
(** A capture ends. *)
Definition dp_ends (t : nat) : bool := cap_sys (i t) && dm_done (dma t) (din t).

Lemma dp_S : forall t, dma (S t) = if cap_sys (i t) then dma_step aw dw align (dma t) (din t) else dma t.
Proof. intros t. apply c_dma_step. Qed.

(** From an instant at which the DMA is idle, each capture that ends has taken [m] sys clocks. *)
Lemma dp_rate : forall a, T0 <= a -> dm_fsm (dma a) = WAIT_SOF -> forall t, a <= t ->
  let C := occurrences dp_ends a (t - a) in let Y := occurrences (fun t => cap_sys (i t)) a (t - a) in
  match dm_fsm (dma t) with
  | WAIT_SOF => C * m <= Y
  | TRANSFER => (1 <= dm_left (dma t) <= Z.of_nat m)%Z /\ C * m + (m - Z.to_nat (dm_left (dma t))) <= Y
  | EOF => C * m + m <= Y
  end.
Proof.
  intros a TA IA t AT. induction AT as [|t AT IH].
  { cbv zeta. rewrite IA, Nat.sub_diag. cbn. lia. }
  cbv zeta in *. replace (S t - a) with ((t - a) + 1) by lia. rewrite !occ_app. replace (a + (t - a)) with t by lia. cbn [occurrences]. rewrite !Nat.add_0_r.
  assert (EN : dp_ends t = cap_sys (i t) && dm_done (dma t) (din t)) by reflexivity. rewrite EN, dp_S. destruct (cap_sys (i t)) eqn:Q; cbn [andb].
  2:{ rewrite !Nat.add_0_r. exact IH. }
  set (C := occurrences dp_ends a (t - a)) in *. set (Y := occurrences (fun t => cap_sys (i t)) a (t - a)) in *.
  unfold dma_step; cbn [dm_fsm dm_left]. unfold dm_done. destruct (dm_fsm (dma t)) eqn:FS.
  - destruct (dm_start (dma t) (din t)).
    + assert (SL : slice align aw (dmi_size (din t)) = Z.of_nat m).
      { rewrite (SZ t) by lia. change (dmi_size (din t)) with (cap_size (i t)). unfold slice, size_words, trunc. reflexivity. }
      rewrite SL. rewrite Nat2Z.id. split; lia.
    + lia.
  - destruct IH as [L1 L2]. unfold dm_write. rewrite FS.
    destruct (dmi_valid (din t) && dmi_ready (din t)); cbn [andb].
    + destruct (Z.eqb_spec (dm_left (dma t)) 1) as [G|G]; [rewrite G in *; change (Z.to_nat 1) with 1 in L2; lia|].
      assert (TR : trunc aw (dm_left (dma t) - 1) = (dm_left (dma t) - 1)%Z).
      { unfold trunc. apply Z.mod_small. pose proof (SZ t ltac:(lia)) as S1. unfold size_words in S1.
        pose proof (Z.mod_pos_bound (cap_size (i t) / 2 ^ align) (2 ^ aw) ltac:(apply Z.pow_pos_nonneg; lia)). lia. }
      rewrite TR. split; [lia|]. lia.
    + split; [exact L1|lia].
  - destruct (negb (dmi_wbusy (din t))); lia.
Qed.

(** A slot is only emptied when its capture ends. *)
Lemma dp_emptied : forall t j, j < ns -> ld j t = true -> ld j (S t) = false -> dp_ends t = true /\ dm_cur (dma t) = j.
Proof.
  intros t j J L L'. unfold ld, slot_status in *. fold (st t) in L. fold (st (S t)) in L'. fold (dma t) in L. fold (dma (S t)) in L'.
  rewrite dp_S in L'. unfold dp_ends. destruct (cap_sys (i t)) eqn:Q; [|congruence]. cbn [andb].
  unfold dma_step in L'; cbn [dm_slots] in L'. rewrite slots_nth in L' by (unfold dma, st; rewrite slots_count; exact J). rewrite Nat.add_0_l in L'.
  change (dmi_sw (din t)) with (cap_sw (i t)) in L'. unfold slot_step in L'. pose proof (POL t j Q L) as P.
  assert (X : dm_done (dma t) (din t) && Nat.eqb (dm_cur (dma t)) j = true).
  { destruct (dm_done (dma t) (din t) && Nat.eqb (dm_cur (dma t)) j); [reflexivity|exfalso].
    destruct (cap_sw (i t)) as [|k v|k v]; [congruence| |]; apply Nat.eqb_neq in P; rewrite P in L'; congruence. }
  apply andb_prop in X as [X1 X2]. apply Nat.eqb_eq in X2. split; assumption.
Qed.
Section Stocked.
Variables (Tq Ts D : nat).
Hypothesis TT : T0 <= Ts.
Hypothesis SK : stocked n F lw aw dw align mem ra ns i m Tq Ts D.
(** A slot that is not loaded at [z] was emptied at some instant and has not been loaded since. *)
Lemma dp_since : forall z j, Ts <= z -> j < ns -> ld j z = false ->
  exists t, Ts <= t < z /\ dp_ends t = true /\ dm_cur (dma t) = j /\ forall v, S t <= v <= z -> ld j v = false.
Proof.
  intros z j TZ J. induction TZ as [|z TZ IH]; intros L.
  { pose proof (sk_all _ _ _ _ _ _ _ _ _ _ _ _ _ _ SK j J) as A. unfold ld in L. congruence. }
  destruct (ld j z) eqn:LZ.
  - destruct (dp_emptied z j J LZ L) as [E1 E2]. exists z. split; [lia|]. split; [exact E1|]. split; [exact E2|]. intros v V. replace v with (S z) by lia. exact L.
  - destruct (IH eq_refl) as (t & T & E1 & E2 & H). exists t. split; [lia|]. split; [exact E1|]. split; [exact E2|].
    intros v V. destruct (Nat.eq_dec v (S z)) as [->|]; [exact L|apply H; lia].
Qed.
(** Some slot is loaded at any time. *)
Lemma dp_some : D < (ns - 1) * m -> forall z, Ts <= z -> exists c, c < ns /\ ld c z = true.
Proof.
  intros DM z TZ.
  assert (DEC : (exists c, c < ns /\ ld c z = true) \/ forall c, c < ns -> ld c z = false).
  { assert (G : forall k, (exists c, c < k /\ ld c z = true) \/ forall c, c < k -> ld c z = false).
    { induction k as [|k [(c & A & B)|IH]]; [right; intros; lia|left; exists c; split; [lia|exact B]|].
      destruct (ld k z) eqn:E; [left; exists k; split; [lia|exact E]|right]. intros c C. destruct (Nat.eq_dec c k) as [->|]; [exact E|apply IH; lia]. }
    apply G. }
  destruct DEC as [G|NL]; [exact G|exfalso].
  assert (LL : forall k, k <= ns -> exists L, length L = k /\ NoDup L /\
    forall t, In t L -> Ts <= t < z /\ dp_ends t = true /\ dm_cur (dma t) < k /\ occurrences (fun t => cap_sys (i t)) (S t) (z - S t) <= D).
  { induction k as [|k IH]; intros K; [exists []; split; [reflexivity|split; [constructor|intros t []]]|].
    destruct (IH ltac:(lia)) as (L & L1 & L2 & L3). destruct (dp_since z k TZ ltac:(lia) (NL k ltac:(lia))) as (t & T & E1 & E2 & H).
    exists (t :: L). split; [cbn; lia|]. split.
    - constructor; [|exact L2]. intros I. destruct (L3 t I) as (_ & _ & C & _). lia.
    - intros u [<-|U].
      + split; [exact T|]. split; [exact E1|]. split; [lia|]. apply (sk_loads _ _ _ _ _ _ _ _ _ _ _ _ _ _ SK (S t) z k); [lia|lia|lia|exact H].
      + destruct (L3 u U) as (A1 & A2 & A3 & A4). split; [exact A1|]. split; [exact A2|]. split; [lia|exact A4]. }
  destruct (LL ns (le_n _)) as (L & L1 & L2 & L3).
  destruct (later_events dp_ends z L) as (t & T & LE); [intros G; rewrite G in L1; cbn in L1; lia|exact L2|intros u U; destruct (L3 u U) as (A1 & A2 & _); split; [lia|exact A2]|].
  destruct (L3 t T) as (A1 & A2 & _ & A4).
  assert (ID : dm_fsm (dma (S t)) = WAIT_SOF).
  { rewrite dp_S. unfold dp_ends in A2. apply andb_prop in A2 as [Q DN]. rewrite Q. unfold dma_step; cbn [dm_fsm]. rewrite DN. unfold dm_done in DN.
    destruct (dm_fsm (dma t)); [discriminate|discriminate|reflexivity]. }
  pose proof (dp_rate (S t) ltac:(lia) ID z ltac:(lia)) as R. cbv zeta in R.
  set (C := occurrences dp_ends (S t) (z - S t)) in *. assert (CM : C * m <= D) by (destruct (dm_fsm (dma z)); lia).
  assert (ns - 1 <= C) by lia. nia.
Qed.
Lemma dp_relayed : D < (ns - 1) * m -> forall x0, Tq <= x0 -> relayed n F lw aw dw align mem ra ns i m (fun x => x0 <= x).
Proof.
  intros DM x0 X0 x z c XX _ XZ _ _ _ _ MW. destruct (Nat.le_gt_cases Ts z) as [L|L]; [apply (dp_some DM z); exact L|exfalso].
  pose proof (sk_soon _ _ _ _ _ _ _ _ _ _ _ _ _ _ SK) as SO. rewrite (occ_split (fun t => cap_sys (i t)) Tq x Ts) in SO by lia.
  rewrite (occ_split (fun t => cap_sys (i t)) x z Ts) in SO by lia. lia.
Qed.
(** The first slot is loaded while the DMA is idle. *)
Lemma dp_begins : exists u c, Tq <= u <= Ts /\ dma_idle n F lw aw dw align mem ra ns i u /\ c < ns /\ Z.odd (slot_status n F lw aw dw align mem ra ns i u c) = true.
Proof.
  destruct (idle_at_first n F lw aw dw align mem ra ns i Tq (sk_before _ _ _ _ _ _ _ _ _ _ _ _ _ _ SK)) as [ID ZS].
  pose proof (sk_from _ _ _ _ _ _ _ _ _ _ _ _ _ _ SK) as TS.
  set (any := fun t => existsb (fun j => ld j t) (seq 0 ns)).
  assert (NO : forall t, any t = false -> forall j, j < ns -> ld j t = false).
  { intros t H j J. destruct (ld j t) eqn:L; [|reflexivity]. assert (X : any t = true) by (apply existsb_exists; exists j; split; [apply in_seq; lia|exact L]). congruence. }
  destruct (first_in any Tq (S Ts - Tq)) as [G | (u & U1 & PU & NU)].
  { pose proof (sk_all _ _ _ _ _ _ _ _ _ _ _ _ _ _ SK 0 ltac:(lia)) as A. pose proof (NO Ts (G Ts ltac:(lia)) 0 ltac:(lia)) as A2. unfold ld in A2. congruence. }
  apply existsb_exists in PU as (c & C1 & C2). apply in_seq in C1.
  assert (AV : forall t, Tq <= t < u -> dm_av (dma t) = false).
  { intros t T. unfold dm_av, dm_slot, sl_loaded. rewrite Z.bit0_odd.
    assert (LEN : length (dm_slots (dma t)) = ns) by apply slots_count. rewrite LEN.
    apply (NO t (NU t ltac:(lia)) (Nat.min (dm_cur (dma t)) (ns - 1))). lia. }
  assert (IDL : forall t, Tq <= t -> t <= u -> dm_fsm (dma t) = WAIT_SOF).
  { intros t T. induction T as [|t T IH]; intros L; [exact ID|]. rewrite dp_S. destruct (cap_sys (i t)); [|apply IH; lia].
    unfold dma_step; cbn [dm_fsm]. rewrite IH by lia. unfold dm_start. rewrite IH, AV by lia. reflexivity. }
  exists u, c. split; [lia|]. split; [apply IDL; lia|]. split; [lia|exact C2].
Qed.
End Stocked.
End Deep.

(** Captures go on without end, with [ns] slots and any software that loads all slots at first and then each one again within [D] sys clocks, less
    than [ns - 1] frames have words: the first one starts at [x0] and holds frame [f0], no later than the first frame that begins after a sys
    clock from [Ts] on; the [N]-th next one holds a frame between [f0 + N] and [f0 + 2 * N], and exactly frame [f0 + N] if there are more than
    [B + 3 * E + 2 * K + 11] sys clocks between frames.  From [Ts] on some slot is always loaded. *)
Theorem C150_stocked_software : forall n F lw aw dw align mem ra ns i X K E B b m words T0 Tq Ts D, D < (ns - 1) * m ->
  streaming n F lw aw dw align mem ra ns i X K E B b m words T0 -> stocked n F lw aw dw align mem ra ns i m Tq Ts D ->
  T0 <= Tq -> B + 2 * (E + K) + 10 <= occurrences (fun t => cap_sys (i t)) T0 (Tq - T0) ->
  let starts := c_starts n F lw aw dw align mem ra (dma_init ns) i in
  (forall t, Ts <= t -> exists c, c < ns /\ Z.odd (slot_status n F lw aw dw align mem ra ns i t c) = true) /\
  exists x0 f0, Tq <= x0 /\ starts x0 = true /\
  (forall v g, 1 <= occurrences (fun t => cap_sys (i t)) Ts (v - Ts) -> occurrences (fun t => cap_pix (i t)) 0 v <= b g -> f0 <= g) /\
  forall N, exists x z c f, x0 <= x /\ starts x = true /\ occurrences starts (S x0) (x - x0) = N /\
  fills n F lw aw dw align mem ra ns i m words x z c f /\ f0 + N <= f <= f0 + 2 * N /\
  ((forall f, exists u k, occurrences (fun t => cap_pix (i t)) 0 u = b f + k /\ length (collect (word_out F X) (b f) k) = m /\
     forall w, b (f + 1) < occurrences (fun t => cap_pix (i t)) 0 w -> B + 3 * E + 2 * K + 11 < occurrences (fun t => cap_sys (i t)) u (w - u)) ->
   f = f0 + N).
Proof.
  intros n F lw aw dw align mem ra ns i X K E B b m words T0 Tq Ts D DM SM SK TQ SQ starts.
  assert (NS : 1 <= ns) by (destruct ns; lia). pose proof (sk_from _ _ _ _ _ _ _ _ _ _ _ _ _ _ SK) as TS.
  pose proof (sm_aw _ _ _ _ _ _ _ _ _ _ _ _ _ _ _ _ _ _ SM) as Haw. pose proof (sm_words _ _ _ _ _ _ _ _ _ _ _ _ _ _ _ _ _ _ SM) as M1.
  pose proof (sm_size _ _ _ _ _ _ _ _ _ _ _ _ _ _ _ _ _ _ SM) as SZ. pose proof (sm_polite _ _ _ _ _ _ _ _ _ _ _ _ _ _ _ _ _ _ SM) as POL.
  split; [exact (dp_some n F lw aw dw align mem ra ns i m T0 NS M1 Haw SZ POL Tq Ts D ltac:(lia) SK DM)|].
  destruct (C142_continuous_capture n F lw aw dw align mem ra ns i X K E B b m words T0 SM) as (fr & ID & R).
  destruct (dp_begins n F lw aw dw align mem ra ns i m T0 NS M1 Tq Ts D ltac:(lia) SK) as (u & c0 & U1 & A1 & C0 & A2).
  destruct (ID u c0 A1 C0 A2) as (x0 & (X1 & X2 & X3) & FST).
  assert (SU : forall w, Tq <= w -> T0 <= w /\ B + 2 * (E + K) + 10 <= occurrences (fun t => cap_sys (i t)) T0 (w - T0)).
  { intros w W. split; [lia|]. replace (w - T0) with ((Tq - T0) + (w - Tq)) by lia. rewrite occ_app. lia. }
  exists x0, (fr x0). split; [lia|]. split; [exact X2|]. split.
  { intros v g OV PV. apply (FST (SU u ltac:(lia)) v g); [|exact PV]. destruct (Nat.le_gt_cases Ts v) as [L|L].
    - rewrite (occ_split (fun t => cap_sys (i t)) u Ts v) by lia. lia.
    - replace (v - Ts) with 0 in OV by lia. cbn in OV. lia. }
  intros N. destruct (R x0 (dp_relayed n F lw aw dw align mem ra ns i m T0 NS M1 Haw SZ POL Tq Ts D ltac:(lia) SK DM x0 ltac:(lia)) (SU x0 ltac:(lia)) X2 N)
    as (x & z & c & I1 & I2 & I3 & I4 & I5 & I6).
  exists x, z, c, (fr x). split; [exact I1|]. split; [exact I2|]. split; [exact I3|]. split; [exact I4|]. split; [exact I5|exact I6].
Qed.
Print Assumptions C150_stocked_software.

(** Source, receiver, memory and such software together (C143): every picture that begins to leave the receiver after a sys clock from [Ts] on is
    stored. *)
Theorem C150_every_picture : forall Q W, hdmi_source Q W -> forall L raw, wired W L raw ->
  forall s0, rx_ok (rh_rx s0) -> one_deep s0 -> forall a0 b1 b2, lock_sequence Q a0 b1 b2 ->
  exists E0, (forall k, k < 3 -> L k / 10 + 6 < E0 <= L k / 10 + 14) /\
  forall hs vs ph pv, sync_coded Q hs vs ph pv -> quiet_after_line Q hs vs ->
  forall l, b2 + 20 <= l -> line_ends Q l = true ->
  forall k m r, 1 <= k -> 1 <= m -> let F := 2 ^ k in hdmi_frames Q vs (F * m) r -> l < r 0 ->
  forall n aw align mem ra ns (i : nat -> cap_in), let dw := (32 * Z.of_nat F)%Z in
  (1 <= n)%Z -> Z.of_nat (length mem) = (2 ^ n)%Z -> (0 < aw)%Z -> 1 <= ns ->
  let x_in t := rx_pk_in (rh_rx (rh_run s0 raw hdmi_mode t)) in
  let pix := occurrences (fun t => cap_pix (i t)) 0 in
  let sys u t := occurrences (fun t => cap_sys (i t)) u (t - u) in
  (forall t, cap_pix (i t) = true -> cap_pk (i t) = x_in (pix t)) ->
  forall K E B,
  runs_bounded (fun t => cap_sys (i t)) (fun t => negb (cap_mready (i t))) K ->
  runs_bounded (fun t => cap_sys (i t))
    (fun t => cap_wbusy (i t) && match c_write n F 32 aw dw align mem ra (dma_init ns) i t with None => true | Some _ => false end) E ->
  slow_enough F x_in (fun t => cap_pix (i t)) (fun t => cap_sys (i t)) K E B ->
  B + E + K + 5 < (K + 1) * (2 ^ Z.to_nat n - 2) ->
  keeps_running (fun t => cap_sys (i t)) -> keeps_running (fun t => cap_pix (i t)) ->
  forall T0, pix T0 = r 1 + E0 + 2 ->
  (forall t, T0 <= t -> Z.of_nat m = size_words aw align (cap_size (i t))) ->
  let loaded t c := Z.odd (slot_status n F 32 aw dw align mem ra ns i t c) = true in
  (forall t j, cap_sys (i t) = true -> loaded t j -> match cap_sw (i t) with SwNone => True | SwStatus k _ => k <> j | SwAddr k _ => k <> j end) ->
  let last f p := r f <= p < r (S f) /\ forall t, p < t < r (S f) -> is_pix (Q t) = false in
  forall Tq Ts D, D < (ns - 1) * m -> stocked n F 32 aw dw align mem ra ns i m Tq Ts D -> T0 <= Tq -> B + 2 * (E + K) + 10 <= sys T0 Tq ->
  (forall f, 1 <= f -> exists p u, last f p /\ pix u = p + E0 + 2 /\ forall w, r (S f) + E0 + 2 < pix w -> B + 3 * E + 2 * K + 11 < sys u w) ->
  forall f v, 1 <= f -> 1 <= sys Ts v -> pix v <= r f + E0 + 2 -> exists x z c, Tq <= x /\ length (picture Q r f) = F * m /\ shows n F 32 aw dw align mem ra ns i m (picture Q r f) x z c /\
  forall p u, last f p -> p + E0 + 2 <= pix u -> sys u z <= B + 3 * E + 2 * K + 11.
Proof.
  intros Q W HQ L raw HW s0 OK OD a0 b1 b2 LK.
  destruct (C143_hdmi_video Q W HQ L raw HW s0 OK OD a0 b1 b2 LK) as (E0 & BE & V). exists E0. split; [exact BE|].
  intros hs vs ph pv SC QU l HL LE k m r K1 M1 F HFR HR0 n aw align mem ra ns i dw N HM Haw NS x_in pix sys HX
    K E B H1 H2 H3 HD Hsys Hpix T0 HT SZ loaded POL last Tq Ts D DM SK TQ SQ GAP f v F1 OV PV.
  destruct (V hs vs ph pv SC QU l HL LE k m r K1 M1 HFR HR0 n aw align mem ra ns i N HM Haw ltac:(lia) HX K E B H1 H2 H3 HD Hsys Hpix T0 HT SZ POL)
    as (fr & ID & P & R).
  pose proof (sk_from _ _ _ _ _ _ _ _ _ _ _ _ _ _ SK) as TS.
  destruct (dp_begins n F 32 aw dw align mem ra ns i m T0 NS M1 Tq Ts D ltac:(lia) SK) as (u0 & c0 & U1 & A1 & C0 & A2).
  destruct (ID u0 c0 A1 C0 A2) as (x0 & (X1 & X2 & X3) & FST).
  assert (SX : forall x, Tq <= x -> T0 <= x /\ B + 2 * (E + K) + 10 <= sys T0 x).
  { intros x LX. split; [lia|]. unfold sys in *. replace (x - T0) with ((Tq - T0) + (x - Tq)) by lia. rewrite occ_app. lia. }
  assert (FF : fr x0 <= f).
  { apply (FST) with (v := v); [apply SX; lia|exact F1| |exact PV]. unfold sys in *. destruct (Nat.le_gt_cases Ts v) as [L1|L1].
    - rewrite (occ_split (fun t => cap_sys (i t)) u0 Ts v) by lia. lia.
    - replace (v - Ts) with 0 in OV by lia. cbn in OV. lia. }
  destruct (R) with (x0 := x0) (N := f - fr x0) as (x & I1 & I2 & I3 & I4 & I5).
  - apply (dp_relayed n F 32 aw dw align mem ra ns i m T0 NS M1 Haw SZ POL Tq Ts D ltac:(lia) SK DM x0). lia.
  - apply SX. lia.
  - exact X2.
  - destruct (P x (SX x ltac:(lia)) I2) as (z & c & PL' & SH & _ & LAT). assert (FX : fr x = f) by (rewrite (I5 GAP); lia). rewrite FX in *.
    exists x, z, c. split; [lia|]. split; [exact PL'|]. split; [exact SH|exact LAT].
Qed.
Print Assumptions C150_every_picture.

(** The same in ycbcr422 mode. *)
Theorem C150_every_picture_422 : forall Q W, hdmi_source Q W -> forall L raw, wired W L raw ->
  forall s0, rx_ok (rh_rx s0) -> one_deep s0 -> forall a0 b1 b2, lock_sequence Q a0 b1 b2 ->
  exists E0, (forall k, k < 3 -> L k / 10 + 6 < E0 <= L k / 10 + 14) /\
  forall hs vs ph pv, sync_coded Q hs vs ph pv -> quiet_after_line Q hs vs ->
  forall l, b2 + 20 <= l -> line_ends Q l = true -> paired_lines Q l ->
  forall k m r, 1 <= k -> 1 <= m -> let F := 2 ^ k in hdmi_frames Q vs (F * m) r -> quiet_before Q r -> l + 11 <= r 0 ->
  forall n aw align mem ra ns (i : nat -> cap_in), let dw := (16 * Z.of_nat F)%Z in
  (1 <= n)%Z -> Z.of_nat (length mem) = (2 ^ n)%Z -> (0 < aw)%Z -> 1 <= ns ->
  let x_in := hdmi_ycc_stream F s0 raw in
  let pix := occurrences (fun t => cap_pix (i t)) 0 in
  let sys u t := occurrences (fun t => cap_sys (i t)) u (t - u) in
  (forall t, cap_pix (i t) = true -> cap_pk (i t) = x_in (pix t)) ->
  forall K E B,
  runs_bounded (fun t => cap_sys (i t)) (fun t => negb (cap_mready (i t))) K ->
  runs_bounded (fun t => cap_sys (i t))
    (fun t => cap_wbusy (i t) && match c_write n F 16 aw dw align mem ra (dma_init ns) i t with None => true | Some _ => false end) E ->
  slow_enough F x_in (fun t => cap_pix (i t)) (fun t => cap_sys (i t)) K E B ->
  B + E + K + 5 < (K + 1) * (2 ^ Z.to_nat n - 2) ->
  keeps_running (fun t => cap_sys (i t)) -> keeps_running (fun t => cap_pix (i t)) ->
  forall T0, pix T0 = r 1 + E0 + 2 ->
  (forall t, T0 <= t -> Z.of_nat m = size_words aw align (cap_size (i t))) ->
  let loaded t c := Z.odd (slot_status n F 16 aw dw align mem ra ns i t c) = true in
  (forall t j, cap_sys (i t) = true -> loaded t j -> match cap_sw (i t) with SwNone => True | SwStatus k _ => k <> j | SwAddr k _ => k <> j end) ->
  let last f p := is_pix (Q p) = true /\ r f <= p < r (S f) /\ forall t, p < t < r (S f) -> is_pix (Q t) = false in
  forall Tq Ts D, D < (ns - 1) * m -> stocked n F 16 aw dw align mem ra ns i m Tq Ts D -> T0 <= Tq -> B + 2 * (E + K) + 10 <= sys T0 Tq ->
  (forall f, 1 <= f -> exists p u, last f p /\ pix u = p + E0 + 13 /\ forall w, r (S f) + E0 + 2 < pix w -> B + 3 * E + 2 * K + 11 < sys u w) ->
  forall f v, 1 <= f -> 1 <= sys Ts v -> pix v <= r f + E0 + 2 -> exists x z c, Tq <= x /\ length (picture_422 Q r f) = F * m /\ shows n F 16 aw dw align mem ra ns i m (picture_422 Q r f) x z c /\
  forall p u, last f p -> p + E0 + 13 <= pix u -> sys u z <= B + 3 * E + 2 * K + 11.
Proof.
  intros Q W HQ L raw HW s0 OK OD a0 b1 b2 LK.
  destruct (C145_hdmi_video_422 Q W HQ L raw HW s0 OK OD a0 b1 b2 LK) as (E0 & BE & V). exists E0. split; [exact BE|].
  intros hs vs ph pv SC QU l HL LE PL k m r K1 M1 F HFR QB HR0 n aw align mem ra ns i dw N HM Haw NS x_in pix sys HX
    K E B H1 H2 H3 HD Hsys Hpix T0 HT SZ loaded POL last Tq Ts D DM SK TQ SQ GAP f v F1 OV PV.
  destruct (V hs vs ph pv SC QU l HL LE PL k m r K1 M1 HFR QB HR0 n aw align mem ra ns i N HM Haw ltac:(lia) HX K E B H1 H2 H3 HD Hsys Hpix T0 HT SZ POL)
    as (fr & ID & P & R).
  pose proof (sk_from _ _ _ _ _ _ _ _ _ _ _ _ _ _ SK) as TS.
  destruct (dp_begins n F 16 aw dw align mem ra ns i m T0 NS M1 Tq Ts D ltac:(lia) SK) as (u0 & c0 & U1 & A1 & C0 & A2).
  destruct (ID u0 c0 A1 C0 A2) as (x0 & (X1 & X2 & X3) & FST).
  assert (SX : forall x, Tq <= x -> T0 <= x /\ B + 2 * (E + K) + 10 <= sys T0 x).
  { intros x LX. split; [lia|]. unfold sys in *. replace (x - T0) with ((Tq - T0) + (x - Tq)) by lia. rewrite occ_app. lia. }
  assert (FF : fr x0 <= f).
  { apply (FST) with (v := v); [apply SX; lia|exact F1| |exact PV]. unfold sys in *. destruct (Nat.le_gt_cases Ts v) as [L1|L1].
    - rewrite (occ_split (fun t => cap_sys (i t)) u0 Ts v) by lia. lia.
    - replace (v - Ts) with 0 in OV by lia. cbn in OV. lia. }
  destruct (R) with (x0 := x0) (N := f - fr x0) as (x & I1 & I2 & I3 & I4 & I5).
  - apply (dp_relayed n F 16 aw dw align mem ra ns i m T0 NS M1 Haw SZ POL Tq Ts D ltac:(lia) SK DM x0). lia.
  - apply SX. lia.
  - exact X2.
  - destruct (P x (SX x ltac:(lia)) I2) as (z & c & PL' & SH & _ & LAT). assert (FX : fr x = f) by (rewrite (I5 GAP); lia). rewrite FX in *.
    exists x, z, c. split; [lia|]. split; [exact PL'|]. split; [exact SH|exact LAT].
Qed.
Print Assumptions C150_every_picture_422.

(** * Software that loads all slots at once and then polls them slowly *)
(** A specification of software: in [ns] clocks from [Tq] on it loads slots 0, 1, ...; then it is the poller of PromptProps.v. *)
Definition burst (ns P Tq t : nat) (s : cap_st) : sw :=
  if (Tq <=? t) && (t <? Tq + ns) then SwStatus (t - Tq) 1 else poll ns P (Tq + ns) t s.
Fixpoint burst_loop (n : Z) (F : nat) (lw aw dw align : Z) (mem : list (bool * list Z)) (ra : Z) (ns P Tq : nat) (e : nat -> cap_in) (t : nat) : cap_st :=
  match t with
  | O => {| cap_fe := FifoModel.fe_init F mem ra; cap_dma := dma_init ns |}
  | S t => let s := burst_loop n F lw aw dw align mem ra ns P Tq e t in cap_step n F lw aw dw align s (with_sw (e t) (burst ns P Tq t s))
  end.
Definition bursting (n : Z) (F : nat) (lw aw dw align : Z) (mem : list (bool * list Z)) (ra : Z) (ns P Tq : nat) (e : nat -> cap_in) (t : nat) : cap_in :=
  with_sw (e t) (burst ns P Tq t (burst_loop n F lw aw dw align mem ra ns P Tq e t)).

Section Burst.
Variables (n : Z) (F : nat) (lw aw dw align : Z) (mem : list (bool * list Z)) (ra : Z) (ns P Tq : nat) (e : nat -> cap_in) (m T0 : nat).
Hypothesis NS : 1 <= ns.
Hypothesis HP : 1 <= P.
Hypothesis SYS : forall t, cap_sys (e t) = true.
Hypothesis Haw : (0 < aw)%Z.
Hypothesis NM : ns < m.
Hypothesis TQ : T0 <= Tq.
Hypothesis SZ : forall t, T0 <= t -> Z.of_nat m = size_words aw align (cap_size (e t)).
Let i := bursting n F lw aw dw align mem ra ns P Tq e.
Let st t := cap_run n F lw aw dw align mem ra (dma_init ns) i t.
Let dma t := cap_dma (st t).
Let ld j t := Z.odd (slot_status n F lw aw dw align mem ra ns i t j).

Lemma bu_run : forall t, st t = burst_loop n F lw aw dw align mem ra ns P Tq e t.
Proof. induction t as [|t IH]; [reflexivity|]. change (st (S t)) with (cap_step n F lw aw dw align (st t) (i t)). rewrite IH. reflexivity. Qed.
Lemma bu_sw : forall t, cap_sw (i t) = burst ns P Tq t (st t).
Proof. intros t. rewrite bu_run. reflexivity. Qed.
Lemma bu_occ : forall a k, occurrences (fun t => cap_sys (i t)) a k = k.
Proof. intros a k. induction k as [|k IH]; [reflexivity|]. replace (S k) with (k + 1) by lia. rewrite occ_app, IH. cbn [occurrences]. change (cap_sys (i (a + k + 0))) with (cap_sys (e (a + k + 0))). rewrite SYS. reflexivity. Qed.
Lemma bu_S : forall t, dma (S t) = dma_step aw dw align (dma t) (c_din n F lw aw dw align mem ra (dma_init ns) i t).
Proof. intros t. pose proof (c_dma_step n F lw aw dw align mem ra (dma_init ns) i t) as D. change (c_sys i t) with (cap_sys (e t)) in D. rewrite SYS in D. exact D. Qed.
Lemma bu_slot : forall t j, j < ns -> ld j (S t) = match cap_sw (i t) with
  | SwStatus k v => if Nat.eqb k j then Z.odd (trunc 2 v) else if dp_ends n F lw aw dw align mem ra ns i t && Nat.eqb (dm_cur (dma t)) j then false else ld j t
  | _ => if dp_ends n F lw aw dw align mem ra ns i t && Nat.eqb (dm_cur (dma t)) j then false else ld j t end.
Proof.
  intros t j J. unfold ld at 1, slot_status. change (cap_run n F lw aw dw align mem ra (dma_init ns) i (S t)) with (st (S t)). fold (dma (S t)). rewrite bu_S.
  unfold dma_step; cbn [dm_slots]. rewrite slots_nth by (unfold dma, st; rewrite slots_count; exact J). rewrite Nat.add_0_l.
  change (dmi_sw (c_din n F lw aw dw align mem ra (dma_init ns) i t)) with (cap_sw (i t)).
  assert (EN : dp_ends n F lw aw dw align mem ra ns i t = dm_done (dma t) (c_din n F lw aw dw align mem ra (dma_init ns) i t)).
  { unfold dp_ends. change (cap_sys (i t)) with (cap_sys (e t)). rewrite SYS. reflexivity. }
  rewrite EN. unfold slot_step. destruct (cap_sw (i t)) as [|k v|k v];
    (destruct (dm_done (dma t) (c_din n F lw aw dw align mem ra (dma_init ns) i t) && Nat.eqb (dm_cur (dma t)) j); [|]);
    try (destruct (Nat.eqb k j); cbn [sl_status]); reflexivity.
Qed.
(** No capture ends during the first [ns] clocks. *)
Lemma bu_none : forall t, Tq <= t < Tq + ns -> dp_ends n F lw aw dw align mem ra ns i t = false.
Proof.
  assert (BEF : forall t j v, t < Tq -> cap_sw (i t) <> SwStatus j v).
  { intros t j v T. rewrite bu_sw. unfold burst, poll. destruct (Nat.leb_spec Tq t); [lia|]. destruct (Nat.leb_spec (Tq + ns) t); [lia|]. discriminate. }
  destruct (idle_at_first n F lw aw dw align mem ra ns i Tq BEF) as [ID _].
  intros t T. pose proof (dp_rate n F lw aw dw align mem ra ns i m T0 NS ltac:(lia) Haw SZ Tq TQ ID t ltac:(lia)) as R. cbv zeta in R. rewrite bu_occ in R.
  unfold dp_ends, dm_done. change (cap_dma (cap_run n F lw aw dw align mem ra (dma_init ns) i t)) with (dma t) in *.
  destruct (dm_fsm (dma t)); [apply andb_false_r|apply andb_false_r|lia].
Qed.
Lemma bu_loaded : forall k, k <= ns -> forall j, j < ns -> ld j (Tq + k) = (j <? k).
Proof.
  assert (BEF : forall t j v, t < Tq -> cap_sw (i t) <> SwStatus j v).
  { intros t j v T. rewrite bu_sw. unfold burst, poll. destruct (Nat.leb_spec Tq t); [lia|]. destruct (Nat.leb_spec (Tq + ns) t); [lia|]. discriminate. }
  destruct (idle_at_first n F lw aw dw align mem ra ns i Tq BEF) as [_ ZS].
  induction k as [|k IH]; intros K j J; [rewrite Nat.add_0_r; unfold ld; rewrite ZS; reflexivity|].
  replace (Tq + S k) with (S (Tq + k)) by lia. rewrite bu_slot by exact J. rewrite bu_sw. unfold burst.
  rewrite (proj2 (Nat.leb_le Tq (Tq + k))), (proj2 (Nat.ltb_lt (Tq + k) (Tq + ns))) by lia. cbn [andb]. rewrite bu_none by lia. cbn [andb].
  replace (Tq + k - Tq) with k by lia. rewrite IH by lia. destruct (Nat.eqb_spec k j) as [->|G].
  - symmetry. apply Nat.ltb_lt. lia.
  - destruct (Nat.ltb_spec j k); destruct (Nat.ltb_spec j (S k)); try reflexivity; lia.
Qed.
Lemma bu_polite : forall t j, cap_sys (i t) = true -> ld j t = true -> match cap_sw (i t) with SwNone => True | SwStatus k _ => k <> j | SwAddr k _ => k <> j end.
Proof.
  intros t j _ L. rewrite bu_sw. unfold burst. destruct (Nat.leb_spec Tq t); cbn [andb].
  - destruct (Nat.ltb_spec t (Tq + ns)).
    + intros <-. pose proof (bu_loaded (t - Tq) ltac:(lia) (t - Tq) ltac:(lia)) as Q. replace (Tq + (t - Tq)) with t in Q by lia. rewrite Nat.ltb_irrefl in Q. congruence.
    + unfold poll. destruct ((Tq + ns <=? t) && (t mod P =? 0)); [|exact I]. cbv zeta.
      destruct (Z.odd (sl_status (nth ((t / P) mod ns) (dm_slots (cap_dma (st t))) slot0))) eqn:G; [exact I|]. intros <-.
      unfold ld, slot_status in L. change (cap_run n F lw aw dw align mem ra (dma_init ns) i t) with (st t) in L. congruence.
  - unfold poll. destruct (Nat.leb_spec (Tq + ns) t); [lia|]. exact I.
Qed.
Example burst_stocked : stocked n F lw aw dw align mem ra ns i m Tq (Tq + ns) (P * ns).
Proof.
  constructor.
  - intros t j v T. rewrite bu_sw. unfold burst, poll. destruct (Nat.leb_spec Tq t); [lia|]. destruct (Nat.leb_spec (Tq + ns) t); [lia|]. discriminate.
  - lia.
  - rewrite bu_occ. lia.
  - intros j J. change (ld j (Tq + ns) = true). rewrite bu_loaded by lia. apply Nat.ltb_lt. exact J.
  - intros u t j TU UT J H. rewrite bu_occ. destruct (Nat.le_gt_cases (t - u) (P * ns)) as [L|L]; [exact L|exfalso].
    destruct (poll_turn ns P NS HP u j J) as (w & W1 & W2 & W3).
    pose proof (H w ltac:(lia)) as HW. pose proof (H (S w) ltac:(lia)) as HS. change (ld j (S w) = false) in HS. rewrite bu_slot in HS by exact J.
    rewrite bu_sw in HS. unfold burst in HS. rewrite (proj2 (Nat.ltb_ge w (Tq + ns))), andb_false_r in HS by lia. unfold poll in HS.
    rewrite (proj2 (Nat.leb_le (Tq + ns) w)), W2, W3 in HS by lia. cbn [andb Nat.eqb] in HS. cbv zeta in HS.
    unfold slot_status in HW. change (cap_run n F lw aw dw align mem ra (dma_init ns) i w) with (st w) in HW. rewrite HW, Nat.eqb_refl in HS. discriminate.
Qed.
End Burst.

(** The source of HdmiSlotProps.v and three slots of which, from instant 6003 on, one is polled every 29 clocks: each may wait for almost two
    pictures of 45 words.  Every picture from picture 2 on is stored. *)
Definition hb_in : nat -> cap_in := bursting 4 (2 ^ 1) 32 8 (32 * Z.of_nat (2 ^ 1)) 3 hd_mem 0 3 29 (60 * 100) ex_slot_in.
Lemma hb_sys : forall a k, occurrences (fun t => cap_sys (hb_in t)) a k = k.
Proof. intros a k. change (fun t => cap_sys (hb_in t)) with (fun _ : nat => true). apply fl_occ. Qed.
Example ex_burst_picture : forall f, 2 <= f -> exists x z c, 60 * 100 <= x /\
  shows 4 2 32 8 64 3 hd_mem 0 3 hb_in 45 (picture ex_src ex_r f) x z c.
Proof.
  intros f FF. destruct ex_source as (S1 & S2 & S3 & S4 & S5 & S6 & S7 & _ & S9).
  destruct (C150_every_picture ex_src ex_W S1 ex_L ex_hraw2 S5 rh_init S6 S7 1 40 72 S4) as (E0 & HE & X).
  assert (EB : E0 <= 20). { specialize (HE 0 ltac:(lia)). assert (ex_L 0 / 10 <= 6) by (apply Nat.leb_le; vm_compute; reflexivity). lia. }
  assert (HT0 : 4 * (ex_r 1 + E0 + 2) <= 60 * 100) by (unfold ex_r; lia).
  destruct (X ex_hs HdmiSrcProps.ex_vs true false S2 S3 210) with (k := 1) (m := 45) (r := ex_r) (n := 4%Z) (aw := 8%Z) (align := 3%Z) (mem := hd_mem)
    (ra := 0%Z) (ns := 3) (i := hb_in) (K := 1) (E := 0) (B := 6) (T0 := 4 * (ex_r 1 + E0 + 2)) (Tq := 60 * 100) (Ts := 60 * 100 + 3) (D := 29 * 3) (f := f) (v := 4 * 1501) as (x & z & c & XT & _ & SH & _).
  - lia.
  - exact S9.
  - lia.
  - lia.
  - exact ex_frames.
  - unfold ex_r. lia.
  - lia.
  - reflexivity.
  - lia.
  - lia.
  - intros t H. change (cap_pix (ex_live_in t) = true) in H. pose proof (ex_live_pix 0 t) as Q. rewrite (CaptureLiveProps.ex_mod (0 + t)) in Q. cbn [Nat.add] in Q.
    cbn [cap_pix ex_live_in] in H. rewrite H in Q. apply Nat.eqb_eq in H. pose proof (Nat.div_mod t 4 ltac:(lia)) as D.
    change (cap_pk (hb_in t)) with (cap_pk (ex_slot_in t)). change (fun t => cap_pix (hb_in t)) with (fun t => cap_pix (ex_live_in t)).
    cbn [cap_pk ex_slot_in]. do 3 f_equal. change (3 mod 4) with 3 in Q. lia.
  - exact ex_live_mem.
  - intros u t UT H. rewrite hb_sys. destruct (Nat.le_gt_cases (t - u) 0) as [L|L]; [exact L|]. exfalso. specialize (H u ltac:(lia) eq_refl). discriminate.
  - change 6 with (4 / 2 ^ 1 + (1 + 0 + 3)). apply clocks_slow_enough; [lia|]. intros a b _. rewrite hb_sys.
    change (fun t => cap_pix (hb_in t)) with (fun t => cap_pix (ex_live_in t)).
    pose proof (ex_live_pix a (b - a)) as QP. pose proof (Nat.mod_upper_bound (a + 3) 4 ltac:(lia)). change (2 ^ 1) with 2. lia.
  - apply Nat.ltb_lt; vm_compute; reflexivity.
  - exact (proj1 ex_live_running).
  - exact (proj2 ex_live_running).
  - apply hd_pix.
  - intros t _. vm_compute. reflexivity.
  - intros t j. apply (bu_polite 4 (2 ^ 1) 32 8 (32 * Z.of_nat (2 ^ 1)) 3 hd_mem 0 3 29 (60 * 100) ex_slot_in 45 (4 * (ex_r 1 + E0 + 2))); try lia; try reflexivity.
  - lia.
  - apply (burst_stocked 4 (2 ^ 1) 32 8 (32 * Z.of_nat (2 ^ 1)) 3 hd_mem 0 3 29 (60 * 100) ex_slot_in 45 (4 * (ex_r 1 + E0 + 2))); try lia; try reflexivity.
  - exact HT0.
  - rewrite hb_sys. unfold ex_r. lia.
  - intros g _. exists (ex_r g + 476), (4 * (ex_r g + 476 + E0 + 2)). split; [apply hd_last|]. split; [apply hd_pix|].
    intros w W. apply hd_pix_le in W. rewrite hb_sys. unfold ex_r in *. lia.
  - lia.
  - rewrite hb_sys. lia.
  - etransitivity; [apply (Nat.eq_le_incl _ _ (hd_pix 1501))|]. unfold ex_r. lia.
  - exists x, z, c. split; [exact XT|exact SH].
Qed.
