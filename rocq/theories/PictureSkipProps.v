(** C140: how many pictures are missed between two captures. *)
From Coq Require Import ZArith List Bool Lia Arith.
From Verif Require Import Hdl Trace CdcProofs AnalysisModel FrameProofs FrameProps InDmaModel InDmaProofs InDmaProps FifoModel FifoProofs FifoProps
  CaptureModel CaptureProofs CaptureProps CaptureRateProofs CaptureLiveProofs CaptureLiveProps FairProofs FairProps PictureOrderProps.
Import ListNotations.
Open Scope nat_scope.

Lemma lowest_spec : forall l k cur,
  (exists j, j < length l /\ sl_loaded (nth j l slot0) = true /\ lowest l k cur = k + j /\ forall e, e < j -> sl_loaded (nth e l slot0) = false) \/
  ((forall j, j < length l -> sl_loaded (nth j l slot0) = false) /\ lowest l k cur = cur).
Proof.
  induction l as [|s l IH]; intros k cur; [right; split; [intros j J; cbn in J; lia|reflexivity]|]. cbn [lowest]. destruct (sl_loaded s) eqn:L.
  - left. exists 0. cbn [length nth]. split; [lia|]. split; [exact L|]. split; [lia|]. intros e E. lia.
  - destruct (IH (S k) cur) as [(j & J1 & J2 & J3 & J4) | [N1 N2]].
    + left. exists (S j). cbn [length nth]. split; [lia|]. split; [exact J2|]. split; [lia|]. intros [|e] E; [exact L|apply J4; lia].
    + right. split; [|exact N2]. intros [|j] J; cbn [length nth] in *; [exact L|apply N1; lia].
Qed.

(** Memory receives frame [f] in the buffer of slot [c], and nothing else, from the start of a capture at [x] to [z], when the slot,
    loaded until then, is marked as filled. *)
Definition fills (n : Z) (F : nat) (lw aw dw align : Z) (mem : list (bool * list Z)) (ra : Z) (ns : nat) (i : nat -> cap_in)
    (m : nat) (words : nat -> nat -> list Z) (x z c f : nat) : Prop :=
  x < z /\ c < ns /\ (forall t, x <= t < z -> Z.odd (slot_status n F lw aw dw align mem ra ns i t c) = true) /\
  slot_status n F lw aw dw align mem ra ns i z c = 2%Z /\
  let a := word_address aw align (slot_address n F lw aw dw align mem ra ns i x c) in
  forall M, let M' := after M (collect (c_write n F lw aw dw align mem ra (dma_init ns) i) x (z - x)) in
  (forall j, j < m -> M' ((a + Z.of_nat j) mod 2 ^ aw)%Z = (joined lw (words f j) mod 2 ^ dw)%Z) /\
  (forall q, (forall j, j < m -> q <> ((a + Z.of_nat j) mod 2 ^ aw)%Z) -> M' q = M q).

(** [x2] is the first instant from [z] on at which a capture starts. *)
Definition next_start (n : Z) (F : nat) (lw aw dw align : Z) (mem : list (bool * list Z)) (ra : Z) (ns : nat) (i : nat -> cap_in) (z x2 : nat) : Prop :=
  z <= x2 /\ c_starts n F lw aw dw align mem ra (dma_init ns) i x2 = true /\
  forall t, z <= t < x2 -> c_starts n F lw aw dw align mem ra (dma_init ns) i t = false.

(** A capture for which the DMA has waited with a loaded slot since [u] holds no later frame than the first one that begins after the first
    sys clock from [u] on.  If another slot is loaded when a slot has been filled, a next capture starts and at most one picture is missed.  As in C139 frame numbers rise and are those of frames that have begun to arrive.  The slot is marked
    within [B + 3 * E + 2 * K + 11] sys clocks of the instant [u] by which the packer has put out the frame's last word.  None is missed if
    a slot with a lower number was loaded when the choice was made, and none if the next frame has not begun by the first sys clock
    after the slot was marked.  Missing: that none is ever missed (refuted below). *)
Theorem C140_next_picture_partial : forall n F lw aw dw align mem ra ns i X K E B b m words T0,
  streaming n F lw aw dw align mem ra ns i X K E B b m words T0 ->
  let starts := c_starts n F lw aw dw align mem ra (dma_init ns) i in
  let settled t := T0 <= t /\ B + 2 * (E + K) + 10 <= occurrences (fun t => cap_sys (i t)) T0 (t - T0) in
  let loaded t c := Z.odd (slot_status n F lw aw dw align mem ra ns i t c) = true in
  exists fr : nat -> nat,
  (forall u c x, settled u -> dma_idle n F lw aw dw align mem ra ns i u -> c < ns -> loaded u c -> next_start n F lw aw dw align mem ra ns i u x ->
   forall v g, 1 <= occurrences (fun t => cap_sys (i t)) u (v - u) -> occurrences (fun u => cap_pix (i u)) 0 v <= b g -> fr x <= g) /\
  forall x, settled x -> starts x = true ->
  exists z c, fills n F lw aw dw align mem ra ns i m words x z c (fr x) /\
  b (fr x) < occurrences (fun u => cap_pix (i u)) 0 z /\ (forall x2, x < x2 -> starts x2 = true -> z <= x2 /\ fr x < fr x2) /\
  (forall u k, b (fr x) + k <= occurrences (fun u => cap_pix (i u)) 0 u -> length (collect (word_out F X) (b (fr x)) k) = m ->
     occurrences (fun t => cap_sys (i t)) u (z - u) <= B + 3 * E + 2 * K + 11) /\
  ((forall j t, j < ns -> j <> c -> x <= t < z -> loaded t j -> loaded (S t) j) /\ m <= occurrences (fun t => cap_sys (i t)) x (z - x)) /\
  forall c', c' < ns -> loaded z c' ->
  exists x2, next_start n F lw aw dw align mem ra ns i z x2 /\
  (fr x2 = fr x + 1 \/ fr x2 = fr x + 2) /\
  (c' < c -> loaded (z - 1) c' -> fr x2 = fr x + 1) /\
  ((forall w, z <= w -> (forall t, z <= t < w -> cap_sys (i t) = false) -> occurrences (fun u => cap_pix (i u)) 0 w <= b (fr x + 1)) ->
   fr x2 = fr x + 1).
Proof.
  intros n F lw aw dw align mem ra ns i X K E B b m words T0 SM starts settled loaded.
  destruct (pictures n F lw aw dw align mem ra ns i X K E B b m words T0 SM) as [OLD PIC].
  destruct SM as [N HM Haw NS HX H1 H2 H3 HD Hsys Hpix M1 HB HT SZ POL].
  assert (LO : forall s, Z.odd (sl_status s) = sl_loaded s) by (intros s; unfold sl_loaded; symmetry; apply Z.bit0_odd).
  assert (P2 : forall t j, c_sys i t = true -> sl_loaded (nth j (dm_slots (cap_dma (cap_run n F lw aw dw align mem ra (dma_init ns) i t))) slot0) = true -> untouched (cap_sw (i t)) j).
  { intros t j Q1 L. apply (POL t j Q1). unfold slot_status. rewrite LO. exact L. }
  pose proof (lv_mem i K H1) as HM1. pose proof (lv_drain n F lw aw dw align mem ra (dma_init ns) i E H2) as HD1.
  pose proof (lv_sof n F lw aw dw align mem ra (dma_init ns) i N HM K E B X HX H1 H2 H3 HD b m words M1 HB T0 HT Hpix) as SOF.
  pose proof (lv_no_loss n F lw aw dw align mem ra (dma_init ns) i N HM K E B X HX H1 H2 H3 HD) as NLOSS.
  set (kp := c_kept n F lw aw dw align mem ra (dma_init ns) i) in *. set (tk := c_taken n F lw aw dw align mem ra (dma_init ns) i) in *.
  set (A := length (collect kp 0 T0)) in *.
  set (nt := fun t => length (collect tk 0 t)) in *.
  set (st := fun t => cap_run n F lw aw dw align mem ra (dma_init ns) i t).
  set (dma := fun t => cap_dma (st t)). set (din := c_din n F lw aw dw align mem ra (dma_init ns) i).
  change (forall t, settled t -> A <= nt t) in OLD.
  assert (FSM : forall t, dma (S t) = if c_sys i t then dma_step aw dw align (dma t) (din t) else dma t) by (intros t; apply c_dma_step).
  assert (LEN : forall t, length (dm_slots (dma t)) = ns) by (intros t; apply slots_count).
  assert (CUR : forall t, dm_cur (dma t) < ns) by (intros t; apply cur_range; exact NS).
  assert (SLOT : forall t, dm_slot (dma t) = nth (dm_cur (dma t)) (dm_slots (dma t)) slot0).
  { intros t. unfold dm_slot. rewrite LEN. f_equal. pose proof (CUR t). lia. }
  assert (NTS : forall t, nt (S t) = nt t + match tk t with Some _ => 1 | None => 0 end).
  { intros t. unfold nt. cbn [collect Nat.add]. rewrite app_length. destruct (tk t); reflexivity. }
  assert (TKE : forall t, tk t = if c_sys i t && dm_ready (dma t) (din t) then fe_frame (cap_fe (st t)) else None) by (intros t; apply tk_def).
  assert (NTH : forall t, T0 <= t -> forall v, fe_frame (cap_fe (st t)) = Some v -> A <= nt t -> fst v = Nat.eqb ((nt t - A) mod m) 0).
  { intros t TT v FV O. destruct (c_head n F lw aw dw align mem ra (dma_init ns) i N HM t v FV) as [HL HV]. fold tk kp in HL, HV.
    change (length (collect tk 0 t)) with (nt t) in HL, HV.
    pose proof (w_nth n F lw aw dw align mem ra (dma_init ns) i N X b m words M1 HX HB T0 t HT TT (fun u _ => NLOSS u) (nt t)) as W. cbv zeta in W. fold kp A in W.
    rewrite <- (nth_prefix _ kp fe_word0 0 t (S t) (nt t)) in W by (lia || exact HL). rewrite HV, W; [reflexivity|exact O|].
    replace (S t) with (t + 1) by lia. rewrite collect_app, app_length. lia. }
  assert (SXF : forall x, starts x = true -> dm_fsm (dma x) = WAIT_SOF /\ exists v, fe_frame (cap_fe (st x)) = Some v /\ fst v = true).
  { intros x H. unfold starts, c_starts in H. apply andb_prop in H as [_ H]. fold din in H. change (dm_start (dma x) (din x) = true) in H. unfold dm_start in H.
    destruct (dm_fsm (dma x)); [|discriminate|discriminate]. split; [reflexivity|]. apply andb_prop in H as [H V]. apply andb_prop in H as [_ S].
    unfold din, c_din, cap_dma_in in S, V. cbn [dmi_sof dmi_valid] in S, V. change (cap_run n F lw aw dw align mem ra (dma_init ns) i x) with (st x) in S, V.
    destruct (fe_frame (cap_fe (st x))) as [v|]; [exists v; split; [reflexivity|exact S]|discriminate]. }
  assert (SET : forall u v, settled u -> u <= v -> settled v).
  { intros u v [U1 U2] UV. split; [lia|]. replace (v - T0) with ((u - T0) + (v - u)) by lia. rewrite occ_app. lia. }
  (* From an instant at which the DMA waits with a loaded slot. *)
  assert (WAIT : forall u, settled u -> dm_fsm (dma u) = WAIT_SOF -> dm_av (dma u) = true ->
    exists x2, next_start n F lw aw dw align mem ra ns i u x2 /\ (nt x2 - A) mod m = 0 /\ nt u <= nt x2 /\
      forall R, nt u <= R < nt x2 -> (R - A) mod m <> 0).
  { intros u SU FU AU. set (c := dm_cur (dma u)).
    assert (SL : sl_loaded (nth c (dm_slots (dma u)) slot0) = true) by (unfold c; rewrite <- SLOT; exact AU).
    assert (SW : forall t, u <= t -> c_sys i t = true -> sl_loaded (nth c (dm_slots (dma t)) slot0) = true -> untouched (cap_sw (i t)) c) by (intros t _; apply P2).
    assert (CL : c < length (dm_slots (dma u))) by (rewrite LEN; apply CUR).
    destruct (start_exists n F lw aw dw align mem ra (dma_init ns) i N HM K E HM1 HD1 Hsys SOF u c SW FU eq_refl CL SL) as (x2 & UX & ST & NST).
    exists x2. split; [split; [exact UX|split; [exact ST|exact NST]]|].
    pose proof (before_start n F lw aw dw align mem ra (dma_init ns) i N u c SW FU eq_refl CL) as BS.
    destruct SU as [TU UU]. pose proof (OLD u (conj TU UU)) as OU.
    assert (MON : forall v t, v <= t -> nt v <= nt t) by (intros v t H; induction H as [|t H IH]; [lia|rewrite NTS; lia]).
    split; [|split; [apply MON; exact UX|]].
    - destruct (SXF x2 ST) as (_ & v & V1 & V2). rewrite (NTH x2 ltac:(lia) v V1) in V2 by (pose proof (MON u x2 UX); lia). apply Nat.eqb_eq in V2. exact V2.
    - intros R [R1 R2].
      destruct (first_in (fun t => R <? nt t) u (S x2 - u)) as [H | (t1 & T1 & PX & NX)].
      { specialize (H x2 ltac:(lia)). cbn in H. apply Nat.ltb_ge in H. lia. }
      apply Nat.ltb_lt in PX. assert (TU1 : u < t1) by (destruct (Nat.eq_dec t1 u) as [->|]; lia).
      pose proof (NX (t1 - 1) ltac:(lia)) as L. cbn in L. apply Nat.ltb_ge in L. pose proof (NTS (t1 - 1)) as Q. replace (S (t1 - 1)) with t1 in Q by lia.
      set (t := t1 - 1) in *. assert (TX : u <= t < x2) by lia.
      destruct (tk t) as [w|] eqn:TK; [|lia]. assert (NR : nt t = R) by lia. rewrite TKE in TK.
      destruct (c_sys i t) eqn:SYS; [|discriminate]. cbn [andb] in TK. destruct (dm_ready (dma t) (din t)) eqn:RD; [|discriminate].
      destruct (BS SL t ltac:(lia)) as [FW SS]; [intros; apply NST; lia|]. change (dm_fsm (dma t) = WAIT_SOF) in FW.
      assert (AV : dm_av (dma t) = true).
      { unfold dm_av. rewrite SLOT. destruct SS as [S1 S2]. change (dm_cur (dma t) = c) in S1. rewrite S1. fold (st t) (st u) in S2. unfold dma at 1. rewrite S2. exact SL. }
      unfold dm_ready in RD. rewrite FW, AV in RD. cbn [negb orb] in RD. unfold din, c_din, cap_dma_in in RD. cbn [dmi_sof] in RD.
      change (cap_run n F lw aw dw align mem ra (dma_init ns) i t) with (st t) in RD. rewrite TK in RD.
      rewrite (NTH t ltac:(lia) w TK) in RD by (rewrite NR; lia). rewrite NR in RD. intros G. rewrite G in RD. discriminate. }
  assert (MON : forall v t, v <= t -> nt v <= nt t) by (intros v t H; induction H as [|t H IH]; [lia|rewrite NTS; lia]).
  assert (NKP : forall t, nt t <= length (collect kp 0 t)).
  { induction t as [|t IH]; [apply Nat.le_refl|]. rewrite NTS. replace (S t) with (t + 1) by lia. rewrite collect_app, app_length.
    destruct (tk t) as [v|] eqn:TK; [|lia]. rewrite TKE in TK. destruct (c_sys i t && dm_ready (dma t) (din t)); [|discriminate].
    destruct (c_head n F lw aw dw align mem ra (dma_init ns) i N HM t v TK) as [HL _]. fold tk kp in HL. change (length (collect tk 0 t)) with (nt t) in HL. lia. }
  assert (BY : forall v g, T0 <= v -> occurrences (c_pix i) 0 v <= b g -> nt v <= A + g * m).
  { intros v g TV PV. pose proof (NKP v) as HL.
    pose proof (w_kept n F lw aw dw align mem ra (dma_init ns) i N X b m M1 HX T0 v HT TV (fun t _ => NLOSS t) (v - T0) ltac:(lia)) as WK.
    destruct (w_windows n F mem i N X b m words M1 HB T0 v HT TV g) as [W2 W3].
    set (P := occurrences (c_pix i) T0 (v - T0)) in *.
    assert (PB : b 0 + P <= b g).
    { rewrite <- HT. etransitivity; [|exact PV]. change (fun u => cap_pix (i u)) with (c_pix i). unfold P.
      replace v with (T0 + (v - T0)) at 2 by lia. rewrite occ_app, Nat.add_0_l. lia. }
    replace v with (T0 + (v - T0)) in HL at 2 by lia. rewrite collect_app, app_length, Nat.add_0_l in HL. fold A in HL. unfold kp in HL. rewrite WK in HL.
    assert (LW : length (collect (word_out F X) (b 0) (b g - b 0)) = g * m).
    { rewrite W3. apply (concat_windows_length _ _ m). intros f. apply W_len. }
    replace (b g - b 0) with (P + (b g - b 0 - P)) in LW by lia. rewrite collect_app, app_length in LW. lia. }
  exists (fun x => (nt x - A) / m). split.
  { intros u c x SU ID CN LC (NX1 & NX2 & NX3) v g OV PV. change (dm_fsm (dma u) = WAIT_SOF) in ID.
    unfold loaded, slot_status in LC. rewrite LO in LC. change (sl_loaded (nth c (dm_slots (dma u)) slot0) = true) in LC.
    assert (UV : u < v) by (destruct (Nat.lt_ge_cases u v) as [L|L]; [exact L|replace (v - u) with 0 in OV by lia; cbn in OV; lia]).
    pose proof SU as [TU _]. pose proof (BY v g ltac:(lia) PV) as NV.
    assert (FIN : forall y x2, u <= y <= v -> next_start n F lw aw dw align mem ra ns i y x2 -> (forall t, u <= t < y -> starts t = false) -> (nt x2 - A) mod m = 0 ->
      (forall R, nt y <= R < nt x2 -> (R - A) mod m <> 0) -> (nt x - A) / m <= g).
    { intros y x2 Y (Y1 & Y2 & Y3) Y4 Q1 Q3.
      assert (x2 = x).
      { destruct (Nat.lt_trichotomy x2 x) as [L|[L|L]]; [exfalso|exact L|exfalso].
        - rewrite NX3 in Y2 by lia. discriminate.
        - destruct (Nat.lt_ge_cases x y) as [L2|L2]; [unfold starts in Y4; rewrite Y4 in NX2 by lia|rewrite Y3 in NX2 by lia]; discriminate. }
      subst x2. pose proof (Nat.div_mod (nt x - A) m ltac:(lia)) as D. rewrite Q1 in D. set (h := (nt x - A) / m) in *.
      destruct (Nat.le_gt_cases h g) as [L|L]; [exact L|exfalso]. pose proof (MON y v ltac:(lia)).
      apply (Q3 (A + g * m)); [nia|]. replace (A + g * m - A) with (g * m) by lia. apply Nat.mod_mul. lia. }
    destruct (dm_av (dma u)) eqn:AV.
    { destruct (WAIT u SU ID AV) as (x2 & NXT & Q1 & _ & Q3). apply (FIN u x2); try assumption; [lia|]. intros t T. lia. }
    destruct (first_in (c_sys i) u (v - u)) as [G | (w & W1 & QW & NW)].
    { change (fun t => cap_sys (i t)) with (c_sys i) in OV. rewrite occ_zero in OV; [lia|exact G]. }
    assert (HOLD : forall y, u <= y -> y <= w -> dma y = dma u).
    { intros y UY. induction UY as [|y UY IH]; intros YW; [reflexivity|]. rewrite FSM, (NW y) by lia. apply IH. lia. }
    pose proof (HOLD w ltac:(lia) ltac:(lia)) as HW.
    destruct (WAIT (S w)) as (x2 & NXT & Q1 & _ & Q3).
    - apply (SET u); [exact SU|lia].
    - rewrite FSM, QW. unfold dma_step; cbn [dm_fsm]. unfold dm_start. rewrite HW, ID, AV. reflexivity.
    - assert (CW : dm_cur (dma (S w)) = lowest (dm_slots (dma u)) 0 (dm_cur (dma u))).
      { rewrite FSM, QW. unfold dma_step; cbn [dm_cur]. rewrite HW, AV. reflexivity. }
      destruct (lowest_spec (dm_slots (dma u)) 0 (dm_cur (dma u))) as [(h & G1 & G2 & G3 & _) | [NONE _]].
      2:{ rewrite NONE in LC by (rewrite LEN; exact CN). discriminate. }
      rewrite LEN in G1. rewrite Nat.add_0_l in G3. rewrite G3 in CW. unfold dm_av. rewrite SLOT, CW.
      rewrite <- HW in G2. etransitivity; [|exact G2]. f_equal. apply (fr_keep n F lw aw dw align mem ra ns i P2 w h G1 G2).
      intros _ D. exfalso. change (dm_done (dma w) (din w) = true) in D. unfold dm_done in D. rewrite HW, ID in D. discriminate.
    - apply (FIN (S w) x2); try assumption; [lia|]. intros t T. unfold starts, c_starts. fold din.
      change (cap_dma (cap_run n F lw aw dw align mem ra (dma_init ns) i t)) with (dma t). unfold dm_start. rewrite (HOLD t) by lia. rewrite ID, AV. apply andb_false_r. }
  intros x SX ST. destruct (PIC x SX ST) as (z & XZ & NOST & (CN & LD & FL & WR) & ARR & _ & ORD & NZ & MOD & FZ1 & FZ & CZ & LAT).
  change (nt z = nt x + m) in NZ. change ((nt x - A) mod m = 0) in MOD.
  change (dm_fsm (dma (z - 1)) = EOF) in FZ1. change (dm_fsm (dma z) = WAIT_SOF) in FZ. change (dm_cur (dma (z - 1)) = dm_cur (dma x)) in CZ.
  set (c := dm_cur (dma x)) in *.
  exists z, c. split.
  { split; [exact XZ|]. split; [exact CN|]. split; [exact LD|]. split; [exact FL|exact WR]. }
  split; [exact ARR|]. split; [exact ORD|]. split; [exact LAT|]. split.
  { assert (LDC : forall t, x <= t < z -> sl_loaded (nth c (dm_slots (dma t)) slot0) = true).
    { intros t T. specialize (LD t T). unfold slot_status in LD. rewrite LO in LD. exact LD. }
    assert (CC : forall t, x <= t -> t < z -> dm_cur (dma t) = c).
    { intros t XT. induction XT as [|t XT IH]; intros TZ; [reflexivity|]. specialize (IH ltac:(lia)). rewrite FSM. destruct (c_sys i t) eqn:SY; [|exact IH].
      assert (AV : dm_av (dma t) = true) by (unfold dm_av; rewrite SLOT, IH; apply LDC; lia).
      unfold dma_step; cbn [dm_cur]. rewrite AV. cbn [negb orb]. destruct (dm_done (dma t) (din t)) eqn:DN; [exfalso|exact IH].
      pose proof (LDC (S t) ltac:(lia)) as L1. rewrite FSM, SY in L1. unfold dma_step in L1; cbn [dm_slots] in L1. rewrite DN in L1.
      rewrite slots_nth in L1 by (rewrite LEN; exact CN). rewrite Nat.add_0_l, IH, Nat.eqb_refl in L1.
      change (dmi_sw (din t)) with (cap_sw (i t)) in L1. rewrite slot_untouched in L1 by (apply P2; [exact SY|apply LDC; lia]). discriminate. }
    split.
    - intros j t J JC T L. unfold loaded, slot_status in *. rewrite LO in *. change (sl_loaded (nth j (dm_slots (dma t)) slot0) = true) in L.
      change (sl_loaded (nth j (dm_slots (dma (S t))) slot0) = true).
      pose proof (fr_keep n F lw aw dw align mem ra ns i P2 t j J L) as Q. etransitivity; [|exact L]. f_equal. apply Q.
      intros _ _ G. change (dm_cur (dma t) = j) in G. rewrite CC in G by lia. congruence.
    - assert (CNT : forall t, x <= t -> nt t <= nt x + occurrences (c_sys i) x (t - x)).
      { intros t XT. induction XT as [|t XT IH]; [lia|]. rewrite NTS, TKE. replace (S t - x) with ((t - x) + 1) by lia. rewrite occ_app.
        replace (x + (t - x)) with t by lia. cbn [occurrences]. rewrite Nat.add_0_r.
        destruct (c_sys i t); cbn [andb]; [destruct (dm_ready (dma t) (din t)); [destruct (fe_frame (cap_fe (st t)))|]|]; lia. }
      pose proof (CNT z ltac:(lia)) as G. change (fun t => cap_sys (i t)) with (c_sys i). lia. }
  intros c' CN' LC. unfold loaded, slot_status in LC. rewrite LO in LC. change (sl_loaded (nth c' (dm_slots (dma z)) slot0) = true) in LC.
  pose proof (OLD x SX) as OX. set (g := (nt x - A) / m).
  assert (GX : nt x = A + g * m). { pose proof (Nat.div_mod (nt x - A) m ltac:(lia)) as D. rewrite MOD in D. fold g in D. lia. }
  assert (GZ : nt z = A + (g + 1) * m) by lia.
  pose proof (SET x z SX ltac:(lia)) as SZz.
  (* the frame number of a start, from the first multiple of m *)
  assert (MULT : forall q h, A + q = h * m + A -> q / m = h) by (intros q h H; replace q with (h * m) by lia; apply Nat.div_mul; lia).
  assert (SAME : forall x2 u k, (nt x2 - A) mod m = 0 -> nt u <= nt x2 -> (forall R, nt u <= R < nt x2 -> (R - A) mod m <> 0) ->
     A + (k - 1) * m < nt u <= A + k * m -> 1 <= k -> (nt x2 - A) / m = k).
  { intros x2 u k Q1 Q2 Q3 Q4 K1. pose proof (Nat.div_mod (nt x2 - A) m ltac:(lia)) as D. rewrite Q1 in D. set (h := (nt x2 - A) / m) in *.
    destruct (Nat.lt_trichotomy h k) as [L|[L|L]]; [exfalso; nia|exact L|exfalso].
    apply (Q3 (A + k * m)); [nia|]. replace (A + k * m - A) with (k * m) by lia. apply Nat.mod_mul. lia. }
  (* the step at z - 1 *)
  assert (STEP : c_sys i (z - 1) = true /\ dm_done (dma (z - 1)) (din (z - 1)) = true).
  { pose proof (FSM (z - 1)) as Q. replace (S (z - 1)) with z in Q by lia. destruct (c_sys i (z - 1)); [|rewrite Q, FZ1 in FZ; discriminate]. split; [reflexivity|].
    rewrite Q in FZ. unfold dma_step in FZ; cbn [dm_fsm] in FZ. rewrite FZ1 in FZ. destruct (dm_done (dma (z - 1)) (din (z - 1))); [reflexivity|discriminate]. }
  destruct STEP as [SY DN].
  assert (CURZ : dm_cur (dma z) = lowest (dm_slots (dma (z - 1))) 0 c).
  { pose proof (FSM (z - 1)) as Q. replace (S (z - 1)) with z in Q by lia. rewrite Q, SY. unfold dma_step; cbn [dm_cur]. rewrite DN, orb_true_r, CZ. reflexivity. }
  assert (LC1 : sl_loaded (nth c (dm_slots (dma (z - 1))) slot0) = true).
  { specialize (LD (z - 1) ltac:(lia)). unfold slot_status in LD. rewrite LO in LD. exact LD. }
  assert (KEEP : forall t e, e < ns -> sl_loaded (nth e (dm_slots (dma t)) slot0) = true -> (c_sys i t = true -> dm_done (dma t) (din t) = true -> dm_cur (dma t) <> e) ->
    sl_loaded (nth e (dm_slots (dma (S t))) slot0) = true).
  { intros t e EN L D. pose proof (fr_keep n F lw aw dw align mem ra ns i P2 t e EN L D) as Q. etransitivity; [|exact L]. f_equal. exact Q. }
  assert (OTHER : forall t j, dm_fsm (dma t) = WAIT_SOF -> j < ns -> sl_loaded (nth j (dm_slots (dma t)) slot0) = true -> sl_loaded (nth j (dm_slots (dma (S t))) slot0) = true).
  { intros t j W J L. apply KEEP; [exact J|exact L|]. intros _ D. unfold dm_done in D. rewrite W in D. discriminate. }
  destruct (lowest_spec (dm_slots (dma (z - 1))) 0 c) as [(e & E1 & E2 & E3 & E4) | [NONE _]].
  2:{ rewrite NONE in LC1 by (rewrite LEN; exact CN). discriminate. }
  rewrite LEN in E1. rewrite Nat.add_0_l in E3. rewrite E3 in CURZ.
  destruct (Nat.eq_dec e c) as [EC|EC].
  - (* the slot just filled is chosen once more *)
    rewrite EC in CURZ, E4.
    assert (AVZ : dm_av (dma z) = false).
    { unfold dm_av. rewrite SLOT, CURZ. rewrite <- LO. assert (FL' : sl_status (nth c (dm_slots (dma z)) slot0) = 2%Z) by exact FL. rewrite FL'. reflexivity. }
    destruct (Hsys z 1) as (t1 & T1 & O1). change (fun t => cap_sys (i t)) with (c_sys i) in O1.
    destruct (first_in (c_sys i) z (t1 - z)) as [G | (w & W1 & QW & NW)].
    { rewrite occ_zero in O1; [lia|exact G]. }
    assert (HOLD : forall v, z <= v -> v <= w -> dma v = dma z /\ nt v = nt z).
    { intros v ZV. induction ZV as [|v ZV IH]; intros VW; [split; reflexivity|]. destruct (IH ltac:(lia)) as [I1 I2]. pose proof (NW v ltac:(lia)) as NV.
      rewrite FSM, NTS, TKE, NV. cbn [andb]. split; [exact I1|lia]. }
    destruct (HOLD w ltac:(lia) ltac:(lia)) as [HW NTW].
    assert (FW : dm_fsm (dma (S w)) = WAIT_SOF).
    { rewrite FSM, QW. unfold dma_step; cbn [dm_fsm]. unfold dm_start. rewrite HW, FZ, AVZ. reflexivity. }
    assert (CW : dm_cur (dma (S w)) = lowest (dm_slots (dma z)) 0 c).
    { rewrite FSM, QW. unfold dma_step; cbn [dm_cur]. rewrite HW, AVZ. cbn [negb orb]. rewrite CURZ. reflexivity. }
    destruct (lowest_spec (dm_slots (dma z)) 0 c) as [(h & G1 & G2 & G3 & G4) | [NONE _]].
    2:{ rewrite NONE in LC by (rewrite LEN; exact CN'). discriminate. }
    rewrite LEN in G1. rewrite Nat.add_0_l in G3. rewrite G3 in CW.
    assert (AVW : dm_av (dma (S w)) = true).
    { unfold dm_av. rewrite SLOT, CW. apply OTHER; [rewrite HW; exact FZ|exact G1|rewrite HW; exact G2]. }
    destruct (WAIT (S w) (SET z (S w) SZz ltac:(lia)) FW AVW) as (x2 & (U1 & U2 & U3) & Q1 & Q2 & Q3).
    exists x2. split.
    { split; [lia|]. split; [exact U2|]. intros t T. destruct (Nat.le_gt_cases t w) as [L|L]; [|apply U3; lia].
      unfold c_starts. fold din. change (cap_dma (cap_run n F lw aw dw align mem ra (dma_init ns) i t)) with (dma t). unfold dm_start.
      rewrite (proj1 (HOLD t ltac:(lia) L)), FZ, AVZ. apply andb_false_r. }
    fold g. pose proof (NTS w) as NSW. rewrite NTW in NSW.
    split; [|split].
    + destruct (tk w); [right|left]; [|apply (SAME x2 (S w)); try assumption; nia].
      destruct (Nat.eq_dec m 1) as [->|]; [|]; apply (SAME x2 (S w)); try assumption; nia.
    + intros CC LL. exfalso. unfold loaded, slot_status in LL. rewrite LO in LL. change (sl_loaded (nth c' (dm_slots (dma (z - 1))) slot0) = true) in LL. rewrite (E4 c' CC) in LL. discriminate.
    + intros LATE. assert (TN : tk w = None).
      { rewrite TKE. destruct (c_sys i w && dm_ready (dma w) (din w)); [|reflexivity]. destruct (fe_frame (cap_fe (st w))) as [v|] eqn:FV; [|reflexivity]. exfalso.
        destruct (c_head n F lw aw dw align mem ra (dma_init ns) i N HM w v FV) as [HL _]. fold tk kp in HL. change (length (collect tk 0 w)) with (nt w) in HL. rewrite NTW, GZ in HL.
        specialize (LATE w ltac:(lia) (fun t T => NW t ltac:(lia))).
        destruct SZz as [TZ _].
        pose proof (w_kept n F lw aw dw align mem ra (dma_init ns) i N X b m M1 HX T0 w HT ltac:(lia) (fun t _ => NLOSS t) (w - T0) ltac:(lia)) as WK.
        destruct (w_windows n F mem i N X b m words M1 HB T0 w HT ltac:(lia) (g + 1)) as [W2 W3].
        set (P := occurrences (c_pix i) T0 (w - T0)) in *.
        assert (PB : b 0 + P <= b (g + 1)).
        { rewrite <- HT. etransitivity; [|exact LATE]. change (fun u => cap_pix (i u)) with (c_pix i). unfold P.
          replace w with (T0 + (w - T0)) at 2 by lia. rewrite occ_app, Nat.add_0_l. lia. }
        replace w with (T0 + (w - T0)) in HL by lia. rewrite collect_app, app_length, Nat.add_0_l in HL. fold A in HL. unfold kp in HL. rewrite WK in HL.
        assert (LW : length (collect (word_out F X) (b 0) (b (g + 1) - b 0)) = (g + 1) * m).
        { rewrite W3. apply (concat_windows_length _ _ m). intros f. apply W_len. }
        replace (b (g + 1) - b 0) with (P + (b (g + 1) - b 0 - P)) in LW by lia. rewrite collect_app, app_length in LW. lia. }
      rewrite TN in NSW. apply (SAME x2 (S w)); try assumption; nia.
  - (* another slot is chosen at once *)
    assert (AVZ : dm_av (dma z) = true).
    { unfold dm_av. rewrite SLOT, CURZ. replace z with (S (z - 1)) by lia. apply KEEP; [exact E1|exact E2|]. intros _ _. rewrite CZ. congruence. }
    destruct (WAIT z SZz FZ AVZ) as (x2 & NXT & Q1 & Q2 & Q3).
    exists x2. split; [exact NXT|]. assert (G : (nt x2 - A) / m = g + 1) by (apply (SAME x2 z); try assumption; nia).
    fold g. split; [left; exact G|]. split; intros; exact G.
Qed.
Print Assumptions C140_next_picture_partial.

(** * A picture is missed *)
(** Frames of one word (two pixels) every three pix clocks, twelve sys clocks apart; the memory pauses for one clock and its last write
    takes eight more.  Software loads slots 0 and 1 before the frame that is captured at instant 86. *)
Definition sk_pk (t : nat) : pk_in := {| pki_vsync := Nat.eqb (t mod 3) 0; pki_we := true; pki_px := Z.of_nat (t mod 12) |}.
Definition sk_in (t : nat) : cap_in :=
  {| cap_pix := Nat.eqb (t mod 4) 0; cap_sys := true; cap_pk := sk_pk (t / 4); cap_mready := negb (Nat.eqb (t mod 12) 3);
     cap_wbusy := ((5 <=? t mod 12) || (t mod 12 =? 0))%nat; cap_size := 8;
     cap_sw := if Nat.eqb t 2 then SwAddr 0 64 else if Nat.eqb t 4 then SwAddr 1 128
               else if Nat.eqb t 80 then SwStatus 0 1 else if Nat.eqb t 81 then SwStatus 1 1 else SwNone;
     cap_mp := 31; cap_mc := 0 |}%Z.
Definition sk_b (f : nat) : nat := 3 * f + 4.
Definition sk_words (f j : nat) : list Z := [Z.of_nat ((3 * f + 5) mod 12); Z.of_nat ((3 * f + 4) mod 12)].

Lemma sk_pk_per : forall t, sk_pk (t + 12) = sk_pk t.
Proof.
  intros t. unfold sk_pk. replace (t + 12) with (t + 4 * 3) at 1 by lia. replace (t + 12) with (t + 1 * 12) by lia. rewrite !Nat.mod_add by lia. reflexivity.
Qed.
Lemma sk_run_per : forall t, 4 <= t -> pk_run 2 sk_pk (t + 12) = pk_run 2 sk_pk t.
Proof. apply periodic; [vm_compute; reflexivity|]. intros t _. apply sk_pk_per. Qed.
Lemma sk_frames : forall f, sk_b f <= sk_b (S f) /\
  collect (word_out 2 sk_pk) (sk_b f) (sk_b (S f) - sk_b f) = map (fun j => (Nat.eqb j 0, sk_words f j)) (seq 0 1).
Proof.
  intros f. split; [unfold sk_b; lia|]. replace (sk_b (S f) - sk_b f) with 3 by (unfold sk_b; lia).
  induction f as [f IH] using lt_wf_ind. destruct (Nat.lt_ge_cases f 4) as [L|L].
  - destruct f as [|[|[|[|f]]]]; try lia; vm_compute; reflexivity.
  - specialize (IH (f - 4) ltac:(lia)). unfold sk_b, sk_words in *. set (a := 3 * (f - 4) + 4) in *.
    replace (3 * f + 4) with (a + 1 * 12) by lia. replace (3 * f + 5) with (3 * (f - 4) + 5 + 1 * 12) by lia. rewrite !Nat.mod_add by lia. rewrite <- IH.
    cbn [collect]. unfold word_out. rewrite !Nat.mul_1_l. rewrite <- !(Nat.add_assoc a 12). rewrite !(Nat.add_comm 12 _), !(Nat.add_assoc a).
    rewrite !sk_run_per by lia. reflexivity.
Qed.

Lemma sk_word_at : forall t, word_out 2 sk_pk t <> None -> t mod 3 = 0.
Proof.
  assert (B : forall t, t < 16 -> word_out 2 sk_pk t <> None -> t mod 3 = 0).
  { intros t T H. do 16 (destruct t as [|t]; [vm_compute in H |- *; try reflexivity; exfalso; apply H; reflexivity|]). lia. }
  intros t. induction t as [t IH] using lt_wf_ind. intros H. destruct (Nat.lt_ge_cases t 16) as [L|L]; [apply B; assumption|].
  specialize (IH (t - 12) ltac:(lia)). unfold word_out in *. replace t with ((t - 12) + 12) in H by lia. rewrite sk_run_per in H by lia. specialize (IH H).
  replace t with ((t - 12) + 4 * 3) by lia. rewrite Nat.mod_add by lia. exact IH.
Qed.
Lemma sk_count : forall a L, 3 * length (collect (word_out 2 sk_pk) a L) + (a + L + 2) mod 3 <= L + (a + 2) mod 3.
Proof.
  intros a L. induction L as [|L IH]; [rewrite Nat.add_0_r; cbn; lia|]. cbn [collect]. rewrite app_length.
  pose proof (Nat.div_mod (a + L) 3 ltac:(lia)) as D. pose proof (Nat.mod_upper_bound (a + L) 3 ltac:(lia)) as U.
  assert (M1 : (a + S L + 2) mod 3 = (a + L) mod 3) by (replace (a + S L + 2) with (a + L + 1 * 3) by lia; apply Nat.mod_add; lia).
  assert (M2 : (a + L + 2) mod 3 = if Nat.eqb ((a + L) mod 3) 0 then 2 else (a + L) mod 3 - 1).
  { destruct (Nat.eqb_spec ((a + L) mod 3) 0); symmetry; [apply Nat.mod_unique with ((a + L) / 3)|apply Nat.mod_unique with ((a + L) / 3 + 1)]; lia. }
  rewrite M1. rewrite M2 in IH. destruct (word_out 2 sk_pk (a + L)) eqn:W.
  - assert (Z0 : (a + L) mod 3 = 0) by (apply sk_word_at; rewrite W; discriminate). rewrite Z0 in *. cbn [Nat.eqb] in IH. cbn [length]. lia.
  - cbn [length]. destruct (Nat.eqb_spec ((a + L) mod 3) 0); lia.
Qed.
Lemma sk_slow : slow_enough 2 sk_pk (fun t => cap_pix (sk_in t)) (fun t => cap_sys (sk_in t)) 1 8 11.
Proof.
  intros a b AB. change (fun t => cap_pix (sk_in t)) with (fun t => cap_pix (ex_live_in t)). change (fun t => cap_sys (sk_in t)) with (fun t => cap_sys (ex_live_in t)).
  rewrite ex_live_sys. pose proof (ex_live_pix a (b - a)) as P. pose proof (Nat.mod_upper_bound (a + 3) 4 ltac:(lia)).
  set (L := occurrences (fun t => cap_pix (ex_live_in t)) a (b - a)) in *. set (a0 := occurrences (fun t => cap_pix (ex_live_in t)) 0 a).
  pose proof (sk_count a0 L) as C. pose proof (Nat.mod_upper_bound (a0 + 2) 3 ltac:(lia)). unfold needed.
  set (ws := collect (word_out 2 sk_pk) a0 L) in *.
  assert (FL : forall l : list (bool * list Z), length (filter fst l) <= length l).
  { induction l as [|w l IH]; [reflexivity|]. cbn [filter length]. destruct (fst w); cbn [length]; lia. }
  pose proof (FL ws). lia.
Qed.
Lemma sk_no_run : forall u t, (forall v, u <= v < t -> Nat.eqb (v mod 12) 3 = true) -> t - u <= 1.
Proof.
  intros u t H. destruct (Nat.le_gt_cases (t - u) 1) as [L|L]; [exact L|]. exfalso.
  pose proof (H u ltac:(lia)) as A. pose proof (H (S u) ltac:(lia)) as C. apply Nat.eqb_eq in A, C.
  pose proof (Nat.div_mod u 12 ltac:(lia)). pose proof (Nat.div_mod (S u) 12 ltac:(lia)). lia.
Qed.
Lemma sk_busy_run : forall u t, (forall v, u <= v < t -> ((5 <=? v mod 12) || (v mod 12 =? 0)) = true) -> t - u <= 8.
Proof.
  intros u t H. destruct (Nat.le_gt_cases (t - u) 8) as [L|L]; [exact L|]. exfalso.
  assert (G : exists d, d <= 8 /\ 1 <= (u + d) mod 12 <= 4).
  { pose proof (Nat.div_mod u 12 ltac:(lia)) as D. pose proof (Nat.mod_upper_bound u 12 ltac:(lia)) as U. set (q := u / 12) in *. set (r := u mod 12) in *.
    destruct (Nat.le_gt_cases r 4).
    - exists (if r =? 0 then 1 else 0). destruct (Nat.eqb_spec r 0).
      + split; [lia|]. replace (u + 1) with (1 + q * 12) by lia. rewrite Nat.mod_add by lia. cbn. lia.
      + split; [lia|]. rewrite Nat.add_0_r. fold r. lia.
    - exists (13 - r). split; [lia|]. replace (u + (13 - r)) with (1 + (q + 1) * 12) by lia. rewrite Nat.mod_add by lia. cbn. lia. }
  destruct G as (d & D1 & D2). specialize (H (u + d) ltac:(lia)). apply orb_prop in H as [H|H]; [apply Nat.leb_le in H|apply Nat.eqb_eq in H]; lia.
Qed.
Definition sk_mem : list (bool * list Z) := repeat fe_word0 16.
Example sk_streaming : streaming 4 2 32 8 64 3 sk_mem 0 2 sk_in sk_pk 1 8 11 sk_b 1 sk_words 13.
Proof.
  constructor; try exact sk_frames; try exact sk_slow; try exact (proj1 ex_live_running); try exact (proj2 ex_live_running); try lia.
  - reflexivity.
  - intros t H. cbn [cap_pix sk_in] in H. pose proof (ex_live_pix 0 t) as Q. rewrite (ex_mod (0 + t)) in Q. cbn [Nat.add] in Q. rewrite H in Q.
    apply Nat.eqb_eq in H. pose proof (Nat.div_mod t 4 ltac:(lia)) as D. cbn [cap_pk sk_in]. f_equal. change (3 mod 4) with 3 in Q.
    change (fun u => cap_pix (sk_in u)) with (fun u => cap_pix (ex_live_in u)). lia.
  - intros u t UT H. change (fun t => cap_sys (sk_in t)) with (fun t => cap_sys (ex_live_in t)). rewrite ex_live_sys. apply sk_no_run.
    intros v V. specialize (H v V eq_refl). cbn [cap_mready sk_in] in H. rewrite negb_involutive in H. exact H.
  - intros u t UT H. change (fun t => cap_sys (sk_in t)) with (fun t => cap_sys (ex_live_in t)). rewrite ex_live_sys. apply sk_busy_run.
    intros v V. specialize (H v V eq_refl). apply andb_prop in H as [H _]. exact H.
  - apply Nat.ltb_lt. vm_compute. reflexivity.
  - vm_compute. reflexivity.
  - intros t _. vm_compute. reflexivity.
  - intros t j _ L. cbn [cap_sw sk_in].
    destruct (Nat.eqb_spec t 2) as [->|]; [intros <-; vm_compute in L; discriminate|]. destruct (Nat.eqb_spec t 4) as [->|]; [intros <-; vm_compute in L; discriminate|].
    destruct (Nat.eqb_spec t 80) as [->|]; [intros <-; vm_compute in L; discriminate|]. destruct (Nat.eqb_spec t 81) as [->|]; [intros <-; vm_compute in L; discriminate|].
    exact I.
Qed.

(** The capture of frame 5 ends while slot 1 is loaded, the next capture holds frame 7; frame 6, which is different, is not captured. *)
Theorem C140_every_picture_refuted : exists n F lw aw dw align mem ra ns i X K E B b m words T0,
  streaming n F lw aw dw align mem ra ns i X K E B b m words T0 /\
  exists x z c c' x2 z2 c2 f, T0 <= x /\ B + 2 * (E + K) + 10 <= occurrences (fun t => cap_sys (i t)) T0 (x - T0) /\
  c_starts n F lw aw dw align mem ra (dma_init ns) i x = true /\ fills n F lw aw dw align mem ra ns i m words x z c f /\
  c' < ns /\ (forall t, x <= t <= z -> Z.odd (slot_status n F lw aw dw align mem ra ns i t c') = true) /\
  next_start n F lw aw dw align mem ra ns i z x2 /\
  fills n F lw aw dw align mem ra ns i m words x2 z2 c2 (f + 2) /\ ~ fills n F lw aw dw align mem ra ns i m words x2 z2 c2 (f + 1).
Proof.
  exists 4%Z, 2, 32%Z, 8%Z, 64%Z, 3%Z, sk_mem, 0%Z, 2, sk_in, sk_pk, 1, 8, 11, sk_b, 1, sk_words, 13. split; [exact sk_streaming|].
  exists 86, 98, 0, 1, 110, 122, 1, 5.
  assert (ALL : forall (p : nat -> bool) a k, forallb p (seq a k) = true -> forall t, a <= t < a + k -> p t = true).
  { intros p a k H t T. rewrite forallb_forall in H. apply H. apply in_seq. exact T. }
  assert (AB : forall M z v q, after M [(z, v)] q = if (q =? z)%Z then v else M q) by reflexivity.
  split; [lia|]. split; [apply Nat.leb_le; vm_compute; reflexivity|]. split; [vm_compute; reflexivity|].
  split.
  { split; [lia|]. split; [lia|]. split; [intros t T; apply (ALL (fun t => Z.odd (slot_status 4 2 32 8 64 3 sk_mem 0 2 sk_in t 0)) 86 12); [vm_compute; reflexivity|lia]|].
    split; [vm_compute; reflexivity|]. intros a M M'. unfold M'.
    assert (W : collect (c_write 4 2 32 8 64 3 sk_mem 0 (dma_init 2) sk_in) 86 (98 - 86) = [(8, 30064771080)]%Z) by (vm_compute; reflexivity). rewrite W.
    assert (AA : a = 8%Z) by (vm_compute; reflexivity). rewrite AA. split.
    - intros j J. replace j with 0 by lia. rewrite AB. vm_compute. reflexivity.
    - intros q Q. rewrite AB. destruct (Z.eqb_spec q 8) as [->|]; [|reflexivity]. exfalso. apply (Q 0); [lia|]. vm_compute. reflexivity. }
  split; [lia|]. split; [intros t T; apply (ALL (fun t => Z.odd (slot_status 4 2 32 8 64 3 sk_mem 0 2 sk_in t 1)) 86 13); [vm_compute; reflexivity|lia]|].
  split.
  { split; [lia|]. split; [vm_compute; reflexivity|]. intros t T. apply negb_true_iff.
    apply (ALL (fun t => negb (c_starts 4 2 32 8 64 3 sk_mem 0 (dma_init 2) sk_in t)) 98 12); [vm_compute; reflexivity|lia]. }
  assert (W : collect (c_write 4 2 32 8 64 3 sk_mem 0 (dma_init 2) sk_in) 110 (122 - 110) = [(16, 4294967298)]%Z) by (vm_compute; reflexivity).
  assert (AA : word_address 8 3 (slot_address 4 2 32 8 64 3 sk_mem 0 2 sk_in 110 1) = 16%Z) by (vm_compute; reflexivity).
  split.
  - split; [lia|]. split; [lia|]. split; [intros t T; apply (ALL (fun t => Z.odd (slot_status 4 2 32 8 64 3 sk_mem 0 2 sk_in t 1)) 110 12); [vm_compute; reflexivity|lia]|].
    split; [vm_compute; reflexivity|]. intros a M M'. unfold M'. rewrite W. unfold a. rewrite AA. split.
    + intros j J. replace j with 0 by lia. rewrite AB. vm_compute. reflexivity.
    + intros q Q. rewrite AB. destruct (Z.eqb_spec q 16) as [->|]; [|reflexivity]. exfalso. apply (Q 0); [lia|]. vm_compute. reflexivity.
  - intros (_ & _ & _ & _ & H). cbv zeta in H. destruct (H (fun _ => 0%Z)) as [H1 _]. specialize (H1 0 ltac:(lia)). rewrite W, AA, AB in H1. vm_compute in H1. discriminate.
Qed.
Print Assumptions C140_every_picture_refuted.

(** The same run meets the hypotheses of the partial theorem: one frame is missed, not more. *)
Example ex_skip : exists fr : nat -> nat, exists z c x2, fills 4 2 32 8 64 3 sk_mem 0 2 sk_in 1 sk_words 86 z c (fr 86) /\
  (Z.odd (slot_status 4 2 32 8 64 3 sk_mem 0 2 sk_in z 1) = true -> next_start 4 2 32 8 64 3 sk_mem 0 2 sk_in z x2 /\ (fr x2 = fr 86 + 1 \/ fr x2 = fr 86 + 2)).
Proof.
  destruct (C140_next_picture_partial _ _ _ _ _ _ _ _ _ _ _ _ _ _ _ _ _ _ sk_streaming) as (fr & _ & H).
  destruct (H 86) as (z & c & F1 & _ & _ & _ & _ & F2).
  - split; [lia|]. apply Nat.leb_le. vm_compute. reflexivity.
  - vm_compute. reflexivity.
  - exists fr, z, c. destruct (Z.odd (slot_status 4 2 32 8 64 3 sk_mem 0 2 sk_in z 1)) eqn:O.
    + destruct (F2 1 ltac:(lia) O) as (x2 & N2 & Q & _). exists x2. split; [exact F1|]. intros _. split; assumption.
    + exists 0. split; [exact F1|]. discriminate.
Qed.
