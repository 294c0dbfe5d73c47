(** C139: pictures reach memory in the order in which they arrive. *)
From Coq Require Import ZArith List Bool Lia Arith.
From Verif Require Import Hdl Trace CdcProofs AnalysisModel FrameProofs FrameProps InDmaModel InDmaProofs InDmaProps FifoModel FifoProofs FifoProps
  CaptureModel CaptureProofs CaptureProps CaptureRateProofs CaptureLiveProofs CaptureLiveProps FairProofs FairProps.
Import ListNotations.
Open Scope nat_scope.

(** The same with the frame numbers given by the words taken from the FIFO, and the state of the DMA at the end of a capture. *)
Lemma pictures : forall n F lw aw dw align mem ra ns i X K E B b m words T0,
  streaming n F lw aw dw align mem ra ns i X K E B b m words T0 ->
  let starts := c_starts n F lw aw dw align mem ra (dma_init ns) i in
  let writes := c_write n F lw aw dw align mem ra (dma_init ns) i in
  let settled t := T0 <= t /\ B + 2 * (E + K) + 10 <= occurrences (fun t => cap_sys (i t)) T0 (t - T0) in
  let taken t := length (collect (c_taken n F lw aw dw align mem ra (dma_init ns) i) 0 t) in
  let old := length (collect (c_kept n F lw aw dw align mem ra (dma_init ns) i) 0 T0) in
  let fr x := (taken x - old) / m in
  let dma t := cap_dma (cap_run n F lw aw dw align mem ra (dma_init ns) i t) in
  (forall t, settled t -> old <= taken t) /\
  forall x, settled x -> starts x = true ->
  exists z, x < z /\ (forall t, x < t < z -> starts t = false) /\
  (let c := dm_cur (dma x) in c < ns /\ (forall t, x <= t < z -> Z.odd (slot_status n F lw aw dw align mem ra ns i t c) = true) /\
     slot_status n F lw aw dw align mem ra ns i z c = 2%Z /\
     let a := word_address aw align (slot_address n F lw aw dw align mem ra ns i x c) in
     forall M, let M' := after M (collect writes x (z - x)) in
     (forall j, j < m -> M' ((a + Z.of_nat j) mod 2 ^ aw)%Z = (joined lw (words (fr x) j) mod 2 ^ dw)%Z) /\
     (forall q, (forall j, j < m -> q <> ((a + Z.of_nat j) mod 2 ^ aw)%Z) -> M' q = M q)) /\
  b (fr x) < occurrences (fun u => cap_pix (i u)) 0 z /\
  (forall t, z <= t -> (forall u, z <= u < t -> starts u = false) -> writes t = None) /\
  (forall x2, x < x2 -> starts x2 = true -> z <= x2 /\ fr x < fr x2) /\
  taken z = taken x + m /\ (taken x - old) mod m = 0 /\ dm_fsm (dma (z - 1)) = EOF /\ dm_fsm (dma z) = WAIT_SOF /\
  dm_cur (dma (z - 1)) = dm_cur (dma x) /\
  (forall u k, b (fr x) + k <= occurrences (fun t => cap_pix (i t)) 0 u -> length (collect (word_out F X) (b (fr x)) k) = m ->
     occurrences (fun t => cap_sys (i t)) u (z - u) <= B + 3 * E + 2 * K + 11).
Proof.
  intros n F lw aw dw align mem ra ns i X K E B b m words T0 [N HM Haw NS HX H1 H2 H3 HD Hsys Hpix M1 HB HT SZ POL] starts writes settled taken old fr dma.
  assert (LO : forall s, Z.odd (sl_status s) = sl_loaded s) by (intros s; unfold sl_loaded; symmetry; apply Z.bit0_odd).
  assert (P2 : forall t j, c_sys i t = true -> sl_loaded (nth j (dm_slots (cap_dma (cap_run n F lw aw dw align mem ra (dma_init ns) i t))) slot0) = true -> untouched (cap_sw (i t)) j).
  { intros t j Q1 L. apply (POL t j Q1). unfold slot_status. rewrite LO. exact L. }
  pose proof (lv_mem i K H1) as HM1. pose proof (lv_drain n F lw aw dw align mem ra (dma_init ns) i E H2) as HD1.
  pose proof (lv_sof n F lw aw dw align mem ra (dma_init ns) i N HM K E B X HX H1 H2 H3 HD b m words M1 HB T0 HT Hpix) as SOF.
  pose proof (lv_no_loss n F lw aw dw align mem ra (dma_init ns) i N HM K E B X HX H1 H2 H3 HD) as NLOSS.
  set (kp := c_kept n F lw aw dw align mem ra (dma_init ns) i) in *. set (tk := c_taken n F lw aw dw align mem ra (dma_init ns) i).
  set (st := fun t => cap_run n F lw aw dw align mem ra (dma_init ns) i t).
  set (A := length (collect kp 0 T0)). set (nt := fun t => length (collect tk 0 t)).
  assert (NTM : forall u v, u <= v -> nt u <= nt v).
  { intros u v H. unfold nt. replace v with (u + (v - u)) by lia. rewrite collect_app, app_length. lia. }
  assert (OLD : forall x, settled x -> A <= nt x).
  { intros x [X1 X2]. apply (taken_by n F lw aw dw align mem ra (dma_init ns) i N HM K E HM1 HD1 (B + E + K + 5) T0 x X1).
    - apply (lv_backlog n F lw aw dw align mem ra (dma_init ns) i N HM K E B X HX H1 H2 H3); assumption.
    - change (c_sys i) with (fun t => cap_sys (i t)). lia. }
  assert (SXF : forall x, starts x = true -> dm_fsm (cap_dma (st x)) = WAIT_SOF).
  { intros x H. unfold starts, c_starts in H. apply andb_prop in H as [_ H]. fold (st x) in H. unfold dm_start in H.
    destruct (dm_fsm (cap_dma (st x))); [reflexivity|discriminate|discriminate]. }
  (* One capture. *)
  assert (ONE : forall x, settled x -> starts x = true -> exists y z, (x < y /\ S y < z) /\ nt z = nt x + m /\ nt y < nt x + m /\
    (forall t, x < t <= y -> dm_fsm (cap_dma (st t)) = TRANSFER) /\ (forall t, y < t < z -> dm_fsm (cap_dma (st t)) = EOF) /\ dm_fsm (cap_dma (st z)) = WAIT_SOF /\
    occurrences (c_accepted n F lw aw dw align mem ra (dma_init ns) i) (x + 1) (y - x - 1) = m - 1 /\ c_accepted n F lw aw dw align mem ra (dma_init ns) i y = true /\
    let c := dm_cur (cap_dma (st x)) in
    (forall t, x <= t < z -> nth c (dm_slots (cap_dma (st t))) slot0 = nth c (dm_slots (cap_dma (st x))) slot0) /\
    sl_loaded (nth c (dm_slots (cap_dma (st x))) slot0) = true /\
    dm_slot (cap_dma (st x)) = nth c (dm_slots (cap_dma (st x))) slot0 /\
    sl_status (nth c (dm_slots (cap_dma (st z))) slot0) = 2%Z /\ dm_cur (cap_dma (st (z - 1))) = c).
  { intros x SX ST. set (c := dm_cur (cap_dma (st x))).
    assert (CN : c < ns) by (apply cur_range; exact NS).
    assert (CS : dm_slot (cap_dma (st x)) = nth c (dm_slots (cap_dma (st x))) slot0).
    { unfold dm_slot. fold c. unfold st. rewrite slots_count. f_equal. lia. }
    assert (SL : sl_loaded (nth c (dm_slots (cap_dma (st x))) slot0) = true).
    { rewrite <- CS. pose proof ST as G. unfold starts, c_starts in G. apply andb_prop in G as [_ G]. fold (st x) in G. unfold dm_start in G.
      rewrite (SXF x ST) in G. apply andb_prop in G as [G _]. apply andb_prop in G as [G _]. exact G. }
    assert (SW : forall t, x <= t -> c_sys i t = true -> sl_loaded (nth c (dm_slots (cap_dma (st t))) slot0) = true -> untouched (cap_sw (i t)) c) by (intros t _; apply P2).
    assert (CL : c < length (dm_slots (cap_dma (st x)))) by (unfold st; rewrite slots_count; exact CN).
    assert (SZ' : forall t, x <= t -> Z.of_nat m = size_words aw align (cap_size (i t))) by (intros t T; apply SZ; destruct SX; lia).
    assert (NST : forall v, x <= v < x -> starts v = false) by (intros; lia).
    destruct (last_exists n F lw aw dw align mem ra (dma_init ns) i N HM K E HM1 HD1 Hsys SOF x c SW Haw (SXF x ST) eq_refl CL SL m SZ' M1 x (le_n x) ST NST)
      as (y & XY & NY & TY & CNT & LAST).
    destruct (done_exists n F lw aw dw align mem ra (dma_init ns) i N E HD1 Hsys x c SW Haw (SXF x ST) eq_refl CL SL m SZ' M1 x (le_n x) ST NST y XY NY TY)
      as (z & YZ & FE & SLZ & FZ).
    pose proof (in_transfer n F lw aw dw align mem ra (dma_init ns) i N x c SW Haw (SXF x ST) eq_refl CL SL m SZ' M1 x (le_n x) ST NST) as TR.
    fold tk in NY. change (length (collect tk 0 y)) with (nt y) in NY. change (length (collect tk 0 x)) with (nt x) in NY.
    assert (TRF : forall t, x < t <= y -> nt t < nt x + m) by (intros t T; pose proof (NTM t y ltac:(lia)); lia).
    exists y, (S z). split; [lia|]. split; [|split; [lia|split; [|split; [|split; [|split; [|split]]]]]].
    - assert (NE : forall t, y < t <= z -> nt (S t) = nt t).
      { intros t T. unfold nt. cbn [collect Nat.add]. rewrite app_length.
        assert (G : tk t = None); [|rewrite G; cbn; lia]. unfold tk. rewrite (tk_def n F lw aw dw align mem ra (dma_init ns) i t).
        unfold dm_ready. rewrite (proj2 (FE t T)). rewrite andb_false_r. reflexivity. }
      assert (NS1 : nt (S y) = nt y + 1).
      { unfold nt. cbn [collect Nat.add]. rewrite app_length. fold tk in TY. destruct (tk y); [reflexivity|congruence]. }
      assert (NZ : forall d, y + d <= z -> nt (S (y + d)) = nt (S y)).
      { induction d as [|d IH]; intros L; [rewrite Nat.add_0_r; reflexivity|]. rewrite NE by lia. replace (y + S d) with (S (y + d)) by lia. apply IH. lia. }
      replace z with (y + (z - y)) by lia. rewrite NZ by lia. lia.
    - intros t T. apply (TR t ltac:(lia) (TRF t T)).
    - intros t T. apply (FE t ltac:(lia)).
    - exact FZ.
    - exact CNT.
    - exact LAST.
    - split; [|split; [exact SL|split; [exact CS|split]]].
      + intros t T. destruct (Nat.eq_dec t x) as [->|]; [reflexivity|]. destruct (Nat.le_gt_cases t y) as [L|L].
        * apply (TR t ltac:(lia) (TRF t ltac:(lia))).
        * apply (FE t ltac:(lia)).
      + fold (st (S z)) in SLZ. rewrite SLZ. reflexivity.
      + replace (S z - 1) with z by lia. destruct (FE z ltac:(lia)) as [[G _] _]. exact G. }
  assert (FSM : forall t, cap_dma (st (S t)) = if c_sys i t then dma_step aw dw align (cap_dma (st t)) (c_din n F lw aw dw align mem ra (dma_init ns) i t) else cap_dma (st t)).
  { intros t. apply c_dma_step. }
  assert (NOW : forall t, dm_fsm (cap_dma (st t)) <> TRANSFER -> writes t = None).
  { intros t H. unfold writes, c_write. destruct (c_sys i t); [|reflexivity]. fold (st t). unfold dm_write. destruct (dm_fsm (cap_dma (st t))); [reflexivity|congruence|reflexivity]. }
  assert (NIL : forall a len, (forall t, a <= t < a + len -> writes t = None) -> collect writes a len = []).
  { intros a len H. induction len as [|len IH]; [reflexivity|]. cbn [collect]. rewrite IH by (intros; apply H; lia). rewrite H by lia. reflexivity. }
  assert (NTH : forall y, T0 <= y -> forall R, A <= R -> R < length (collect kp 0 (S y)) ->
    nth R (collect kp 0 (S y)) fe_word0 = (Nat.eqb ((R - A) mod m) 0, words ((R - A) / m) ((R - A) mod m))).
  { intros y Y. apply (w_nth n F lw aw dw align mem ra (dma_init ns) i N X b m words M1 HX HB T0 y HT Y). intros t _. apply NLOSS. }
  split; [exact OLD|]. intros x SX ST.
  destruct (ONE x SX ST) as (y & z & XYZ & NZ & NY & FT & FE & FZ & CNT & LAST & KEEP & SL & CS & FILL & CZ).
  assert (NOST : forall t, x < t < z -> starts t = false).
  { intros t T. destruct (starts t) eqn:G; [|reflexivity]. apply SXF in G. exfalso.
    destruct (Nat.le_gt_cases t y) as [L|L]; [rewrite FT in G by lia|rewrite FE in G by lia]; discriminate. }
  exists z. split; [lia|]. split; [exact NOST|]. split; [|split; [|split; [|split]]].
  - intros c. split; [apply cur_range; exact NS|]. split; [intros t T; unfold slot_status; rewrite LO; rewrite KEEP by exact T; exact SL|].
    split; [exact FILL|]. intros a M M'.
    destruct (one_capture n F lw aw dw align mem ra (dma_init ns) i N HM Haw x y m ltac:(lia) ST (SZ x (proj1 SX)) M1 CNT LAST) as (L & TAG & WR).
    fold tk kp in L, TAG, WR. change (length (collect tk 0 x)) with (nt x) in L, TAG, WR. pose proof (OLD x SX) as O. destruct SX as [TX _].
    assert (AW : word_address aw align (sl_addr (dm_slot (cap_dma (cap_run n F lw aw dw align mem ra (dma_init ns) i x)))) = a).
    { fold (st x). rewrite CS. reflexivity. }
    rewrite AW in WR. rewrite (NTH y ltac:(lia)) in TAG by lia. cbn [fst] in TAG. apply Nat.eqb_eq in TAG.
    set (q := nt x - A) in *.
    assert (WR' : collect writes x (z - x) = map (fun j => (((a + Z.of_nat j) mod 2 ^ aw)%Z, (joined lw (words (q / m)%nat j) mod 2 ^ dw)%Z)) (seq 0 m)).
    { replace (z - x) with (1 + ((y - x) + (z - y - 1))) by lia. rewrite !collect_app.
      rewrite (NIL x 1) by (intros t T; apply NOW; replace t with x by lia; rewrite (SXF x ST); discriminate).
      rewrite (NIL (x + 1 + (y - x)) (z - y - 1)) by (intros t T; apply NOW; rewrite FE by lia; discriminate).
      rewrite app_nil_r. cbn [app]. unfold writes. rewrite WR. apply map_ext_in. intros j J. apply in_seq in J. rewrite (NTH y ltac:(lia)) by lia. cbn [snd]. rewrite joined_lanes. unfold trunc.
      replace (nt x + j - A) with (q + j) by (unfold q; lia).
      pose proof (Nat.div_mod q m ltac:(lia)) as DM. rewrite TAG, Nat.add_0_r in DM.
      replace (q + j) with (j + (q / m) * m) by lia. rewrite Nat.div_add, Nat.mod_add, Nat.div_small, Nat.mod_small by lia. reflexivity. }
    unfold M'. rewrite WR'. apply after_block. intros j k J K' EQ.
    assert (m2 : (Z.of_nat m < 2 ^ aw)%Z) by (rewrite (SZ x TX); apply Z.mod_pos_bound, Z.pow_pos_nonneg; lia).
    assert (D : ((Z.of_nat j - Z.of_nat k) mod 2 ^ aw = 0)%Z).
    { replace (Z.of_nat j - Z.of_nat k)%Z with ((a + Z.of_nat j) - (a + Z.of_nat k))%Z by lia. rewrite Zminus_mod, EQ, Z.sub_diag. reflexivity. }
    apply Z.mod_divide in D; [|lia]. destruct D as [d D]. assert (d = 0)%Z by nia. nia.
  - destruct (one_capture n F lw aw dw align mem ra (dma_init ns) i N HM Haw x y m ltac:(lia) ST (SZ x (proj1 SX)) M1 CNT LAST) as (L & _ & _).
    fold tk kp in L. change (length (collect tk 0 x)) with (nt x) in L. pose proof (OLD x SX) as O. destruct SX as [TX _].
    set (g := (nt x - A) / m). assert (GM : m * g <= nt x - A) by (apply Nat.mul_div_le; lia).
    destruct (Nat.lt_ge_cases (b g) (occurrences (fun u => cap_pix (i u)) 0 z)) as [C|C]; [exact C|exfalso].
    pose proof (w_kept n F lw aw dw align mem ra (dma_init ns) i N X b m M1 HX T0 y HT ltac:(lia) (fun t _ => NLOSS t) (S y - T0) ltac:(lia)) as WK.
    destruct (w_windows n F mem i N X b m words M1 HB T0 y HT ltac:(lia) g) as [W1 W2].
    set (P := occurrences (c_pix i) T0 (S y - T0)) in *.
    assert (PB : b 0 + P <= b g).
    { rewrite <- HT. etransitivity; [|exact C]. change (fun u => cap_pix (i u)) with (c_pix i). unfold P.
      replace z with (T0 + ((S y - T0) + (z - S y))) by lia. rewrite !occ_app, Nat.add_0_l. lia. }
    replace (S y) with (T0 + (S y - T0)) in L by lia. rewrite collect_app, app_length, Nat.add_0_l in L. fold A in L. unfold kp in L. rewrite WK in L.
    assert (LW : length (collect (word_out F X) (b 0) (b g - b 0)) = g * m).
    { rewrite W2. apply (concat_windows_length _ _ m). intros f. apply W_len. }
    replace (b g - b 0) with (P + (b g - b 0 - P)) in LW by lia. rewrite collect_app, app_length in LW. nia.
  - intros t T H. apply NOW. assert (G : dm_fsm (cap_dma (st t)) = WAIT_SOF); [|rewrite G; discriminate].
    induction T as [|t T IH]; [exact FZ|]. assert (IF : dm_fsm (cap_dma (st t)) = WAIT_SOF) by (apply IH; intros; apply H; lia).
    rewrite FSM. destruct (c_sys i t) eqn:Q; [|exact IF]. specialize (H t ltac:(lia)). unfold starts, c_starts in H. rewrite Q in H. cbn [andb] in H. fold (st t) in H.
    unfold dma_step; cbn [dm_fsm]. rewrite IF, H. reflexivity.
  - intros x2 X2 S2. assert (ZX : z <= x2).
    { destruct (Nat.le_gt_cases z x2) as [L|L]; [exact L|]. rewrite NOST in S2 by lia. discriminate. }
    split; [exact ZX|]. pose proof (NTM z x2 ZX). pose proof (OLD x SX).
    change ((nt x - A) / m < (nt x2 - A) / m). assert ((nt x - A) / m + 1 <= (nt x2 - A) / m); [|lia].
    replace ((nt x - A) / m + 1) with ((nt x - A + 1 * m) / m) by (apply Nat.div_add; lia). apply Nat.div_le_mono; lia.
  - split; [exact NZ|]. split.
    + destruct (one_capture n F lw aw dw align mem ra (dma_init ns) i N HM Haw x y m ltac:(lia) ST (SZ x (proj1 SX)) M1 CNT LAST) as (L & TAG & _).
      fold tk kp in L, TAG. change (length (collect tk 0 x)) with (nt x) in L, TAG. pose proof (OLD x SX) as O. destruct SX as [TX _].
      rewrite (NTH y ltac:(lia)) in TAG by lia. cbn [fst] in TAG. apply Nat.eqb_eq in TAG. exact TAG.
    + split; [apply (FE (z - 1)); lia|]. split; [exact FZ|]. split; [exact CZ|].
      intros u k UK LK. change (fr x) with ((nt x - A) / m) in UK, LK.
      destruct (one_capture n F lw aw dw align mem ra (dma_init ns) i N HM Haw x y m ltac:(lia) ST (SZ x (proj1 SX)) M1 CNT LAST) as (_ & TAG & _).
      fold tk kp in TAG. change (length (collect tk 0 x)) with (nt x) in TAG. pose proof (OLD x SX) as O.
      destruct (one_capture n F lw aw dw align mem ra (dma_init ns) i N HM Haw x y m ltac:(lia) ST (SZ x (proj1 SX)) M1 CNT LAST) as (L & _ & _).
      fold tk kp in L. change (length (collect tk 0 x)) with (nt x) in L. destruct SX as [TX _].
      rewrite (NTH y ltac:(lia)) in TAG by lia. cbn [fst] in TAG. apply Nat.eqb_eq in TAG.
      pose proof (Nat.div_mod (nt x - A) m ltac:(lia)) as DM. rewrite TAG in DM. set (g := (nt x - A) / m) in *.
      destruct (Nat.le_gt_cases z u) as [ZU|ZU]; [replace (z - u) with 0 by lia; cbn; lia|].
      destruct (w_windows n F mem i N X b m words M1 HB T0 y HT ltac:(lia) g) as [W1 W2].
      assert (K1 : 1 <= k) by (destruct k; [cbn in LK; lia|lia]).
      assert (TU : T0 <= u).
      { destruct (Nat.le_gt_cases T0 u) as [C|C]; [exact C|exfalso]. rewrite <- HT in W1. change (fun t => cap_pix (i t)) with (c_pix i) in UK.
        change (fun t => cap_pix (i t)) with (c_pix i) in W1. replace T0 with (u + (T0 - u)) in W1 by lia. rewrite occ_app in W1. lia. }
      assert (NK : A + (g + 1) * m <= length (collect kp 0 u)).
      { pose proof (w_kept n F lw aw dw align mem ra (dma_init ns) i N X b m M1 HX T0 u HT TU (fun t _ => NLOSS t) (u - T0) ltac:(lia)) as WK.
        replace u with (T0 + (u - T0)) by lia. rewrite collect_app, app_length, Nat.add_0_l. fold A. unfold kp. rewrite WK.
        assert (PB : b g + k <= b 0 + occurrences (c_pix i) T0 (u - T0)).
        { etransitivity; [exact UK|]. rewrite <- HT. change (fun t => cap_pix (i t)) with (c_pix i).
          replace u with (T0 + (u - T0)) at 1 by lia. rewrite occ_app, Nat.add_0_l. lia. }
        set (P := occurrences (c_pix i) T0 (u - T0)) in *.
        replace P with ((b g - b 0) + (k + (P - (b g - b 0) - k))) by lia. rewrite !collect_app, !app_length.
        replace (b 0 + (b g - b 0)) with (b g) by lia. rewrite LK, W2.
        rewrite (concat_windows_length _ _ m) by (intros f; apply W_len). lia. }
      change (fun t => cap_sys (i t)) with (c_sys i).
      destruct (Nat.le_gt_cases (B + 2 * (E + K) + 10) (occurrences (c_sys i) u (z - u))) as [C|C]; [|lia].
      destruct (occ_reach n mem N (c_sys i) u _ z ltac:(lia) C) as (t & UT & OT).
      assert (NT : length (collect kp 0 u) <= nt t).
      { apply (taken_by n F lw aw dw align mem ra (dma_init ns) i N HM K E HM1 HD1 (B + E + K + 5) u t ltac:(lia)); [|rewrite OT; lia].
        apply (lv_backlog n F lw aw dw align mem ra (dma_init ns) i N HM K E B X HX H1 H2 H3); assumption. }
      assert (YT : y < t). { destruct (Nat.lt_ge_cases y t) as [Q|Q]; [exact Q|exfalso]. pose proof (NTM t y Q). nia. }
      destruct (Nat.le_gt_cases z t) as [ZT|ZT].
      { assert (ZE : z = t) by lia. rewrite ZE, OT. lia. }
      assert (DR : occurrences (c_sys i) t (z - 1 - t) <= E).
      { apply HD1; [lia|]. intros v V Q. split; [apply (FE v); lia|]. destruct (cap_wbusy (i v)) eqn:WB; [reflexivity|exfalso].
        pose proof (FSM v) as S1. rewrite Q in S1. pose proof (FE (S v) ltac:(lia)) as S2. rewrite S1 in S2. unfold dma_step in S2; cbn [dm_fsm] in S2.
        rewrite (FE v ltac:(lia)) in S2. unfold dm_done in S2. rewrite (FE v ltac:(lia)) in S2. unfold c_din, cap_dma_in in S2. cbn [dmi_wbusy] in S2. rewrite WB in S2. discriminate. }
      rewrite (occ_split (c_sys i) u t z) by lia. rewrite (occ_split (c_sys i) t (z - 1) z) by lia. rewrite OT.
      replace (z - (z - 1)) with 1 by lia. cbn [occurrences]. destruct (c_sys i (z - 1 + 0)); lia.
Qed.

(** Every capture that starts at [x], once the words older than frame 0 are gone,
    has an end [z]: some slot is loaded from [x] to [z] and filled at [z], between
    them memory receives frame [fr x] in that slot's buffer and nothing else, and no
    other capture starts.  Frame [fr x] has begun to arrive by [z].  From [z] to the next start nothing is written.  Of two
    captures the later one holds a later frame. *)
Theorem C139_pictures_in_order : forall n F lw aw dw align mem ra ns i X K E B b m words T0,
  streaming n F lw aw dw align mem ra ns i X K E B b m words T0 ->
  let starts := c_starts n F lw aw dw align mem ra (dma_init ns) i in
  let writes := c_write n F lw aw dw align mem ra (dma_init ns) i in
  let settled t := T0 <= t /\ B + 2 * (E + K) + 10 <= occurrences (fun t => cap_sys (i t)) T0 (t - T0) in
  exists fr : nat -> nat, forall x, settled x -> starts x = true ->
  exists z, x < z /\ (forall t, x < t < z -> starts t = false) /\
  (exists c, c < ns /\ (forall t, x <= t < z -> Z.odd (slot_status n F lw aw dw align mem ra ns i t c) = true) /\
     slot_status n F lw aw dw align mem ra ns i z c = 2%Z /\
     let a := word_address aw align (slot_address n F lw aw dw align mem ra ns i x c) in
     forall M, let M' := after M (collect writes x (z - x)) in
     (forall j, j < m -> M' ((a + Z.of_nat j) mod 2 ^ aw)%Z = (joined lw (words (fr x) j) mod 2 ^ dw)%Z) /\
     (forall q, (forall j, j < m -> q <> ((a + Z.of_nat j) mod 2 ^ aw)%Z) -> M' q = M q)) /\
  b (fr x) < occurrences (fun u => cap_pix (i u)) 0 z /\
  (forall t, z <= t -> (forall u, z <= u < t -> starts u = false) -> writes t = None) /\
  (forall x2, x < x2 -> starts x2 = true -> z <= x2 /\ fr x < fr x2).
Proof.
  intros n F lw aw dw align mem ra ns i X K E B b m words T0 H starts writes settled.
  destruct (pictures n F lw aw dw align mem ra ns i X K E B b m words T0 H) as [_ P].
  eexists. intros x SX ST. destruct (P x SX ST) as (z & P1 & P2 & P3 & P4 & P5 & P6 & _).
  exists z. split; [exact P1|]. split; [exact P2|]. split; [eexists; exact P3|]. split; [exact P4|]. split; [exact P5|exact P6].
Qed.
Print Assumptions C139_pictures_in_order.

(** The run of FairProps.v with three slots: captures start at 98 and 138, in slots 1
    and 0, and hold different frames. *)
Example ex_starts : c_starts 4 2 32 8 64 3 (repeat fe_word0 16) 0 (dma_init 3) ex_starve_in 98 = true /\
  c_starts 4 2 32 8 64 3 (repeat fe_word0 16) 0 (dma_init 3) ex_starve_in 138 = true.
Proof. vm_compute. split; reflexivity. Qed.
Example ex_order : exists (fr : nat -> nat) z, 98 < z <= 138 /\ fr 98 < fr 138 /\
  exists c, c < 3 /\ slot_status 4 2 32 8 64 3 (repeat fe_word0 16) 0 3 ex_starve_in z c = 2%Z.
Proof.
  destruct (C139_pictures_in_order _ _ _ _ _ _ _ _ _ _ _ _ _ _ _ _ _ _ ex_starve_streaming) as (fr & H). destruct ex_starts as [S1 S2].
  destruct (H 98) as (z & Z1 & _ & (c & C & _ & G & _) & _ & _ & O); [|exact S1|].
  - split; [lia|]. change (fun t => cap_sys (ex_starve_in t)) with (fun t => cap_sys (ex_live_in t)). rewrite ex_live_sys. lia.
  - destruct (O 138 ltac:(lia) S2) as [O1 O2]. exists fr, z. split; [lia|]. split; [exact O2|]. exists c. split; assumption.
Qed.
