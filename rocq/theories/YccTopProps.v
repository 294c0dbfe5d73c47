(** C120: the video output in ycbcr422 mode, from its registers to the PHY and on to the receiver's memory. *)
From Coq Require Import ZArith List Bool Lia Arith.
From Verif Require Import Hdl Trace CdcProofs CdcWerProps AnalysisModel TimingModel TimingSpec TimingProofs VideoOutModel VideoOutProofs
  HdmiModel HdmiProofs LinkModel LinkProofs LinkProps InDmaModel FifoModel FifoProofs FifoProps CaptureModel CaptureProofs CaptureProps
  FrameProofs FrameProps InDmaProofs InDmaProps GenlockProps PhyModel PhyProps StartupProofs StartupProps OutTopModel OutTopProofs OutTopProps
  CaptureLiveProofs CaptureLiveProps FrameLiveProofs CscModel CscSpec YccPathModel YccPathProofs YccPathProps JoinProps YccTopModel YccTopProofs.
Import ListNotations.
Open Scope Z_scope.

(** The pixel shown for word [own] of the pair of words [a], [b]: luma in the low
    byte of each, blue chroma in the high byte of the first, red chroma in that of the second. *)
Definition shown_422 (a b own : Z) : rgb :=
  spec_rgb 8 {| c_y := own mod 2 ^ 8; c_cb := a / 2 ^ 8 mod 2 ^ 8; c_cr := b / 2 ^ 8 mod 2 ^ 8 |}.
(** Pixel [q] of a picture stored as [W 0, W 1, ...]. *)
Definition pixel_422 (W : Z -> Z) (q : Z) : rgb := shown_422 (W (2 * (q / 2))) (W (2 * (q / 2) + 1)) (W q).
Definition px_rgb (x : px) : rgb := {| c_r := px_r x; c_g := px_g x; c_b := px_b x |}.

(** Whatever gaps there are in the words of a line: the two pixels of a pair are given to the PHY
    six and seven clocks after the second word of the pair, the syncs six clocks late. *)
Theorem C120_pairs : forall c t, rises (fun n => vyi_de (c n)) t = true ->
  forall a b k, (t <= a < b)%nat -> vyi_valid (c a) = true -> vyi_valid (c b) = true ->
  let words := occurrences (fun n => vyi_valid (c n)) t in
  words (a - t)%nat = (2 * k)%nat -> words (b - t)%nat = (2 * k + 1)%nat ->
  (forall n, (t < n <= b + 2)%nat -> rises (fun n => vyi_de (c n)) n = false) ->
  px_rgb (yt_px c (b + 6)) = shown_422 (vyi_data (c a)) (vyi_data (c b)) (vyi_data (c a)) /\
  px_rgb (yt_px c (b + 7)) = shown_422 (vyi_data (c a)) (vyi_data (c b)) (vyi_data (c b)).
Proof.
  intros c t Hr a b k [TA AB] Va Vb words Wa Wb Hno.
  destruct (gp_colours c t Hr a b k TA AB Va Vb Wa Wb Hno) as [A B].
  assert (PX : forall n, px_rgb (yt_px c n) = vy_colour (vy_run c n)).
  { intros n. unfold px_rgb, yt_px. destruct (vy_sync (vy_run c n) (c n)) as [[de hs] vs]. cbn [px_r px_g px_b]. destruct (vy_colour (vy_run c n)); reflexivity. }
  rewrite !PX, A, B. unfold shown_422, vy_pair, slice. cbn [d_y d_c]. rewrite !Z.pow_0_r, !Z.div_1_r. auto.
Qed.
Print Assumptions C120_pairs.

Lemma yt_px_sync : forall c n, let x := yt_px c (n + 6) in px_de x = vyi_de (c n) /\ px_hs x = vyi_hs (c n) /\ px_vs x = vyi_vs (c n).
Proof. intros c n. cbv zeta. unfold yt_px. rewrite vy_sync_at. auto. Qed.
Lemma yt_px_early : forall c n, (n < 6)%nat -> let x := yt_px c n in px_de x = false /\ px_hs x = false /\ px_vs x = false.
Proof. intros c n N. cbv zeta. unfold yt_px. rewrite vy_sync_early by exact N. auto. Qed.

Section Top.
Variables (shift aw : Z) (depth : nat) (mem : list (list Z)) (ra : Z) (i : nat -> ot_in).
Hypothesis Haw : 0 <= aw.
Hypothesis HM : length mem = 4%nat.
Variables (u : nat) (R : list Z) (t0 : nat).
Hypothesis Hon : enabled_with shift aw depth mem ra i u R t0.
Let p := timing_of R.
Hypothesis ok : params_ok p.
Hypothesis Hpix : 0 < p_hres p * p_vres p < 2 ^ aw.
Hypothesis Hl : nth 9 R 0 / 2 ^ shift = p_hres p * p_vres p.
Hypothesis Hblank : p_hres p + 1 <= p_hscan p.
Variable E : nat -> nat.
Hypothesis HE : clocks i ((p_hscan p + 1) * (p_vscan p + 1)) E.
Hypothesis Hready : forall x, ot_ready (i x) = true.
Variables (M : Z -> Z) (junk : nat -> Z).
Let st := ot_run shift aw depth mem ra i.
Let o n := ot_px shift aw M (junk n) (st (E n)) (i (E n)).
Let dv n := ot_dv shift aw (st (E n)) (i (E n)).
Let c n := yt_core shift aw M (junk n) (st (E n)) (i (E n)).
Let n0 := occurrences (fun x => ot_cd (i x)) 0 t0.
Let held n := underflows o dv n.
Let pos n := occurrences (fun m => vyi_valid (c m)) 0 n.

Lemma c_valid : forall n, vyi_valid (c n) = (n0 <=? n)%nat && negb (px_de (o n) && negb (dv n)).
Proof.
  intros n. destruct (first_start shift aw depth mem ra i u R t0 HM Hon) as (F1 & F2 & F3 & F4). destruct HE as [HE1 HE2].
  assert (HK : forall t v, (t0 <= t)%nat -> ini_out (ot_ini (st t)) = Some v ->
    vp_t (regs_param shift aw v) = vp_t (regs_param shift aw R) /\ vp_length (regs_param shift aw v) = vp_length (regs_param shift aw R)).
  { intros t v T O. rewrite (F2 t v T O). auto. }
  assert (HS : forall a b, (a <= b)%nat -> (Z.to_nat ((p_hscan p + 1) * (p_vscan p + 1)) <= occurrences (fun x => ot_cd (i x)) a (b - a) + 2)%nat ->
    (4 <= occurrences (fun x => ot_sys (i x)) a (b - a))%nat) by (intros a b AB HX; apply HE2; [exact AB|lia]).
  unfold c, yt_core. cbv zeta. cbn [vyi_valid]. unfold vo_valid.
  destruct (Nat.leb_spec n0 n) as [GE|LT].
  - assert (TE : (t0 <= E n)%nat) by (apply (E_after shift aw mem i HM R t0 E HE1); fold n0; lia).
    destruct (ot_inv_all shift aw depth mem ra i HM R t0 dr_init [] F1 HK F3 F4 ok E HE1 HS (E n) TE) as ((v0 & I1) & _).
    assert (V : vi_valid (vt_vi (ot_vt shift aw (st (E n))) (ot_ti shift aw (st (E n)) (i (E n)))) = true).
    { cbn [vt_vi vi_valid]. unfold vt_valid. cbn [ot_vt vt_q]. unfold st. rewrite I1. reflexivity. }
    rewrite V. cbn [andb]. unfold o, ot_px, vt_px. cbv zeta. cbn [tx_px px_de]. cbn [vi_valid]. rewrite V. cbn [ot_vt vt_tg].
    unfold dv, ot_dv. rewrite negb_andb, negb_involutive. reflexivity.
  - assert (TE : (E n < t0)%nat) by (pose proof (E_after shift aw mem i HM R t0 E HE1 n) as Q; fold n0 in Q; lia).
    destruct Hon as (_ & _ & _ & B). cbn [vt_vi vi_valid]. unfold vt_valid. cbn [ot_vt vt_q]. unfold st. rewrite (B (E n) TE). reflexivity.
Qed.

Lemma o_blank0 : forall n, (n < n0)%nat -> px_de (o n) = false.
Proof. intros n N. destruct (blank shift aw depth mem ra i u R t0 HM Hon _ E HE M junk) as [BL _]. apply (BL n N). Qed.

Lemma pos_held : forall n, (pos n + (if n0 <=? n then n0 else n) + held n = n)%nat.
Proof.
  induction n as [|n IH]; [unfold pos, held, underflows; cbn; destruct (n0 <=? 0)%nat eqn:Q; [apply Nat.leb_le in Q|]; lia|].
  unfold pos, held, underflows in *. cbn [occurrences]. rewrite !Nat.add_0_l, c_valid.
  pose proof (o_blank0 n) as BL.
  destruct (Nat.leb_spec n0 n); destruct (Nat.leb_spec n0 (S n)); cbn [andb] in *; try lia.
  - destruct (px_de (o n) && negb (dv n)); cbn [negb]; lia.
  - rewrite BL by lia. cbn [andb]. lia.
  - rewrite BL by lia. cbn [andb]. lia.
Qed.

(** Point of the scan in clock [n]. *)
Lemma at_point : forall n f y x, 0 <= f -> 0 <= y < p_vscan p + 1 -> 0 <= x < p_hscan p + 1 ->
  Z.of_nat (pos n) = 1 + (f * (p_vscan p + 1) + y) * (p_hscan p + 1) + x ->
  px_de (o n) = (x <? p_hres p) && (y <? p_vres p) /\
  px_hs (o n) = (p_hs_start p <=? x) && (x <? p_hs_end p) /\
  px_vs (o n) = (p_vs_start p <=? y) && (y <? p_vs_end p) /\
  (x < p_hres p -> y < p_vres p -> dv n = true ->
    let d := M (picture_word shift aw R (y * p_hres p + x)) in
    vyi_data (c n) mod 2 ^ 8 = d mod 2 ^ 8 /\ vyi_data (c n) / 2 ^ 8 mod 2 ^ 8 = d / 2 ^ 8 mod 2 ^ 8).
Proof.
  intros n f y x Hf Hy Hx EQ. pose proof (pos_held n) as PH.
  assert (0 <= (f * (p_vscan p + 1) + y) * (p_hscan p + 1)) by (destruct ok; nia).
  assert (GE : (n0 <= n)%nat).
  { destruct (Nat.leb_spec n0 n) as [|LT]; [assumption|]. exfalso. lia. }
  replace (n0 <=? n)%nat with true in PH by (symmetry; apply Nat.leb_le; exact GE).
  destruct (C90_registers_to_screen shift aw depth mem ra i Haw HM u R t0 Hon ok Hpix Hl E HE Hready M junk n) as [_ SC].
  cbv zeta in SC. destruct (SC f y x Hf Hy Hx) as (A & B & C & D).
  { fold p st. fold (o n). change (underflows _ _ n) with (held n). change (occurrences (fun x0 => ot_cd (i x0)) 0 t0) with n0. lia. }
  split; [exact A|]. split; [exact B|]. split; [exact C|]. intros X Y DV. destruct (D X Y DV) as (D1 & D2 & _). cbv zeta.
  change (px_r _) with (slice 0 8 (vyi_data (c n))) in D1. change (px_g _) with (slice 8 8 (vyi_data (c n))) in D2.
  unfold slice in D1, D2. rewrite Z.pow_0_r, Z.div_1_r in D1. auto.
Qed.
Lemma at_start : forall n, pos n = 0%nat -> px_de (o n) = false /\ px_hs (o n) = false /\ px_vs (o n) = false.
Proof.
  intros n P0. pose proof (pos_held n) as PH. rewrite P0 in PH.
  destruct (C90_registers_to_screen shift aw depth mem ra i Haw HM u R t0 Hon ok Hpix Hl E HE Hready M junk n) as [SC _].
  cbv zeta in SC. fold st in SC. apply SC. change (underflows _ _ n) with (held n). change (occurrences _ 0 t0) with n0.
  destruct (Nat.leb_spec n0 n); lia.
Qed.

Lemma pos_mono : forall a b, (a <= b)%nat -> (pos a <= pos b)%nat.
Proof. intros a b AB. replace b with (a + (b - a))%nat by lia. unfold pos. rewrite occ_app. lia. Qed.
Lemma pos_next : forall n, (pos n <= pos (S n) <= S (pos n))%nat.
Proof. intros n. unfold pos. cbn [occurrences]. destruct (vyi_valid _); lia. Qed.

(** Words [2k] and [2k+1] of line [y] of frame [f] come in clocks [a] and [b]. *)
Lemma pair_shown : forall f y k a b, 0 <= f -> 0 <= y < p_vres p -> 0 <= k -> 2 * k + 1 < p_hres p -> p_vres p <= p_vscan p + 1 ->
  Z.of_nat (pos a) = 1 + (f * (p_vscan p + 1) + y) * (p_hscan p + 1) + 2 * k -> dv a = true ->
  Z.of_nat (pos b) = 1 + (f * (p_vscan p + 1) + y) * (p_hscan p + 1) + 2 * k + 1 -> dv b = true ->
  let wa := M (picture_word shift aw R (y * p_hres p + 2 * k)) in
  let wb := M (picture_word shift aw R (y * p_hres p + (2 * k + 1))) in
  px_rgb (yt_px c (b + 6)) = shown_422 wa wb wa /\ px_rgb (yt_px c (b + 7)) = shown_422 wa wb wb.
Proof.
  intros f y k a b Hf Hy Hk Hk2 Hvs Pa Da Pb Db wa wb.
  assert (P0 : 0 <= (f * (p_vscan p + 1) + y) * (p_hscan p + 1)) by (destruct ok; nia).
  set (P := (f * (p_vscan p + 1) + y) * (p_hscan p + 1)) in *.
  destruct (at_point a f y (2 * k) Hf ltac:(lia) ltac:(lia) ltac:(fold P; lia)) as (A1 & _ & _ & A2).
  destruct (at_point b f y (2 * k + 1) Hf ltac:(lia) ltac:(lia) ltac:(fold P; lia)) as (B1 & _ & _ & B2).
  destruct (A2 ltac:(lia) ltac:(lia) Da) as [A3 A4]. destruct (B2 ltac:(lia) ltac:(lia) Db) as [B3 B4]. cbv zeta in A3, A4, B3, B4. fold wa in A3, A4. fold wb in B3, B4.
  assert (GE : forall n, (0 < pos n)%nat -> (n0 <= n)%nat) by (intros n N; pose proof (pos_held n); destruct (Nat.leb_spec n0 n); lia).
  assert (Va : vyi_valid (c a) = true) by (rewrite c_valid, Da, andb_false_r; rewrite (proj2 (Nat.leb_le n0 a)) by (apply GE; lia); reflexivity).
  assert (Vb : vyi_valid (c b) = true) by (rewrite c_valid, Db, andb_false_r; rewrite (proj2 (Nat.leb_le n0 b)) by (apply GE; lia); reflexivity).
  assert (AB : (a < b)%nat) by (destruct (Nat.lt_ge_cases a b) as [|L]; [assumption|]; pose proof (pos_mono b a L); lia).
  destruct (edge_at (fun m => vyi_valid (c m)) 0 a (Z.to_nat P) ltac:(change (Z.to_nat P < pos a)%nat; lia)) as (t' & T1 & T2 & T3).
  rewrite Nat.sub_0_r in T3. change (occurrences _ 0 t') with (pos t') in T3. 
  set (t := S t'). assert (PT : pos t = S (Z.to_nat P)) by (unfold t, pos; cbn [occurrences]; rewrite Nat.add_0_l, T2; change (occurrences _ 0 t') with (pos t'); lia).
  (* points of the line *)
  assert (LN : forall n, (pos t <= pos n)%nat -> Z.of_nat (pos n) <= 1 + P + p_hscan p -> px_de (o n) = (Z.of_nat (pos n) - 1 - P <? p_hres p)).
  { intros n N1 N2. destruct (at_point n f y (Z.of_nat (pos n) - 1 - P) Hf ltac:(lia) ltac:(lia) ltac:(fold P; lia)) as (Q & _).
    rewrite Q. replace (y <? p_vres p) with true by (symmetry; apply Z.ltb_lt; lia). apply andb_true_r. }
  assert (PB2 : (pos (b + 2) <= pos b + 2)%nat) by (replace (b + 2)%nat with (S (S b)) by lia; pose proof (pos_next b); pose proof (pos_next (S b)); lia).
  assert (R0 : rises (fun n => vyi_de (c n)) t = true).
  { unfold rises, t. apply andb_true_iff. split.
    - change (vyi_de (c (S t'))) with (px_de (o t)). rewrite LN by lia. apply Z.ltb_lt. lia.
    - change (vyi_de (c t')) with (px_de (o t')).
      destruct (Z.eq_dec P 0) as [Z0|NZ].
      + rewrite (proj1 (at_start t' ltac:(rewrite T3, Z0; reflexivity))). reflexivity.
      + assert (exists f' y', 0 <= f' /\ 0 <= y' < p_vscan p + 1 /\ P = (f' * (p_vscan p + 1) + y' + 1) * (p_hscan p + 1)) as (f' & y' & F' & Y' & EP).
        { destruct (Z.eq_dec y 0) as [->|Y0].
          - exists (f - 1), (p_vscan p). assert (f <> 0) by (intros ->; apply NZ; unfold P; ring). destruct ok. split; [lia|]. split; [lia|]. unfold P. ring.
          - exists f, (y - 1). split; [lia|]. split; [lia|]. unfold P. ring. }
        destruct (at_point t' f' y' (p_hscan p) F' Y' ltac:(destruct ok; lia)) as (Q & _).
        { rewrite T3. replace ((f' * (p_vscan p + 1) + y' + 1) * (p_hscan p + 1)) with ((f' * (p_vscan p + 1) + y') * (p_hscan p + 1) + (p_hscan p + 1)) in EP by ring. lia. }
        rewrite Q. replace (p_hscan p <? p_hres p) with false by (symmetry; apply Z.ltb_ge; lia). reflexivity. }
  destruct (C120_pairs c t R0 a b (Z.to_nat k) ltac:(unfold t; lia) Va Vb) as [C1 C2].
  - pose proof (occ_app (fun m => vyi_valid (c m)) 0 t (a - t)) as OA. replace (t + (a - t))%nat with a in OA by (unfold t; lia).
    change (pos a = pos t + occurrences (fun m => vyi_valid (c m)) t (a - t))%nat in OA. lia.
  - pose proof (occ_app (fun m => vyi_valid (c m)) 0 t (b - t)) as OA. replace (t + (b - t))%nat with b in OA by (unfold t; lia).
    change (pos b = pos t + occurrences (fun m => vyi_valid (c m)) t (b - t))%nat in OA. lia.
  - intros n N. unfold rises. destruct n as [|n]; [lia|]. change (vyi_de (c (S n))) with (px_de (o (S n))). change (vyi_de (c n)) with (px_de (o n)).
    pose proof (pos_mono t n ltac:(lia)) as M1. pose proof (pos_next n) as M2. pose proof (pos_mono (S n) (b + 2) ltac:(lia)) as M3.
    rewrite !LN by lia. destruct (Z.ltb_spec (Z.of_nat (pos (S n)) - 1 - P) (p_hres p)); [|reflexivity].
    replace (Z.of_nat (pos n) - 1 - P <? p_hres p) with true by (symmetry; apply Z.ltb_lt; lia). reflexivity.
  - rewrite C1, C2. unfold shown_422. rewrite A3, A4, B3, B4. auto.
Qed.

(** The scan in the form the link theorems use. *)
Lemma shows_tx : forall n, px_de (o n) = tx_de p (pos n) /\ px_hs (o n) = tx_hs p (pos n) /\ px_vs (o n) = tx_vs p (pos n).
Proof.
  intros n. destruct (Nat.eq_dec (pos n) 0) as [P0|NZ].
  - rewrite P0. exact (at_start n P0).
  - set (m := Z.of_nat (pos n) - 1). assert (0 <= m) by (unfold m; lia).
    pose proof ok as OK. destruct OK as [? ? ? ? ? ? ? ?].
    pose proof (Z.mod_pos_bound m (p_hscan p + 1) ltac:(lia)) as X.
    pose proof (Z.mod_pos_bound (m / (p_hscan p + 1)) (p_vscan p + 1) ltac:(lia)) as Y.
    pose proof (Z.div_pos m (p_hscan p + 1) ltac:(lia) ltac:(lia)) as Q1.
    pose proof (Z.div_pos (m / (p_hscan p + 1)) (p_vscan p + 1) ltac:(lia) ltac:(lia)) as F.
    destruct (at_point n _ _ _ F Y X) as (A & B & C & _).
    { pose proof (Z.div_mod m (p_hscan p + 1) ltac:(lia)) as E1. pose proof (Z.div_mod (m / (p_hscan p + 1)) (p_vscan p + 1) ltac:(lia)) as E2.
      assert (E3 : m / (p_hscan p + 1) / (p_vscan p + 1) * (p_vscan p + 1) + m / (p_hscan p + 1) mod (p_vscan p + 1) = m / (p_hscan p + 1)) by lia.
      rewrite E3. unfold m in *. lia. }
    unfold tx_de, tx_hs, tx_vs. rewrite (proj2 (Nat.leb_le 1 (pos n))) by lia. cbn [andb]. fold m.
    unfold spec_de, spec_hsync, spec_vsync, scan_x, scan_y. auto.
Qed.
End Top.

(** Six clocks behind the core, the PHY is given the scan that the registers ask for, held only by
    clocks in which a pixel is due and the memory has not delivered it; the colours of each pair come six and seven
    clocks after the memory has delivered the second word of the pair. *)
Theorem C120_registers_to_screen :
  forall shift aw depth mem ra (i : nat -> ot_in), 0 <= aw -> length mem = 4%nat ->
  forall u R t0, enabled_with shift aw depth mem ra i u R t0 ->
  let p := timing_of R in params_ok p -> 0 < p_hres p * p_vres p < 2 ^ aw -> nth 9 R 0 / 2 ^ shift = p_hres p * p_vres p ->
  p_hres p + 1 <= p_hscan p -> p_vres p <= p_vscan p + 1 ->
  forall E, clocks i ((p_hscan p + 1) * (p_vscan p + 1)) E -> (forall x, ot_ready (i x) = true) ->
  forall M junk, let st := ot_run shift aw depth mem ra i in
  let o n := ot_px shift aw M (junk n) (st (E n)) (i (E n)) in
  let dv n := ot_dv shift aw (st (E n)) (i (E n)) in
  let shown := yt_px (fun n => yt_core shift aw M (junk n) (st (E n)) (i (E n))) in
  let n0 := occurrences (fun x => ot_cd (i x)) 0 t0 in
  let at_ n f y x := Z.of_nat n = Z.of_nat n0 + 1 + (f * (p_vscan p + 1) + y) * (p_hscan p + 1) + x + Z.of_nat (underflows o dv n) in
  (forall n, (n < 6)%nat -> px_de (shown n) = false /\ px_hs (shown n) = false /\ px_vs (shown n) = false) /\
  (forall n, (n <= n0 + underflows o dv n)%nat ->
     let s := shown (n + 6)%nat in px_de s = false /\ px_hs s = false /\ px_vs s = false) /\
  (forall n f y x, 0 <= f -> 0 <= y < p_vscan p + 1 -> 0 <= x < p_hscan p + 1 -> at_ n f y x ->
     let s := shown (n + 6)%nat in
     px_de s = (x <? p_hres p) && (y <? p_vres p) /\
     px_hs s = (p_hs_start p <=? x) && (x <? p_hs_end p) /\
     px_vs s = (p_vs_start p <=? y) && (y <? p_vs_end p)) /\
  (forall f y k a b, 0 <= f -> 0 <= y < p_vres p -> 0 <= k -> 2 * k + 1 < p_hres p ->
     at_ a f y (2 * k) -> dv a = true -> at_ b f y (2 * k + 1) -> dv b = true ->
     let wa := M (picture_word shift aw R (y * p_hres p + 2 * k)) in
     let wb := M (picture_word shift aw R (y * p_hres p + (2 * k + 1))) in
     px_rgb (shown (b + 6)%nat) = shown_422 wa wb wa /\ px_rgb (shown (b + 7)%nat) = shown_422 wa wb wb).
Proof.
  intros shift aw depth mem ra i Haw HM u R t0 Hon p ok Hpix Hl Hb Hv E HE Hready M junk st o dv shown n0 at_.
  split; [intros n N; exact (yt_px_early _ n N)|].
  assert (SC := C90_registers_to_screen shift aw depth mem ra i Haw HM u R t0 Hon ok Hpix Hl E HE Hready M junk).
  split; [|split].
  - intros n N s. destruct (yt_px_sync (fun n => yt_core shift aw M (junk n) (st (E n)) (i (E n))) n) as (A & B & C). cbv zeta in A, B, C.
    unfold s, shown. rewrite A, B, C. destruct (SC n) as [Q _]. exact (Q N).
  - intros n f y x Hf Hy Hx AT s. destruct (yt_px_sync (fun n => yt_core shift aw M (junk n) (st (E n)) (i (E n))) n) as (A & B & C). cbv zeta in A, B, C.
    unfold s, shown. rewrite A, B, C. destruct (SC n) as [_ Q]. destruct (Q f y x Hf Hy Hx AT) as (Q1 & Q2 & Q3 & _). auto.
  - intros f y k a b Hf Hy Hk Hk2 Ta Da Tb Db wa wb.
    assert (P0 : 0 <= (f * (p_vscan p + 1) + y) * (p_hscan p + 1)) by (destruct ok; nia).
    set (pos := occurrences (fun m => vyi_valid (yt_core shift aw M (junk m) (st (E m)) (i (E m)))) 0).
    assert (PH : forall n, (pos n + (if n0 <=? n then n0 else n) + underflows o dv n = n)%nat)
      by exact (pos_held shift aw depth mem ra i Haw HM u R t0 Hon ok E HE M junk).
    apply (pair_shown shift aw depth mem ra i Haw HM u R t0 Hon ok Hpix Hl Hb E HE Hready M junk f y k a b Hf Hy Hk Hk2 Hv); try assumption.
    + change (Z.of_nat (pos a) = 1 + (f * (p_vscan p + 1) + y) * (p_hscan p + 1) + 2 * k). pose proof (PH a). unfold at_ in Ta. destruct (Nat.leb_spec n0 a); lia.
    + change (Z.of_nat (pos b) = 1 + (f * (p_vscan p + 1) + y) * (p_hscan p + 1) + 2 * k + 1). pose proof (PH b). unfold at_ in Tb. destruct (Nat.leb_spec n0 b); lia.
Qed.
Print Assumptions C120_registers_to_screen.

(** ** Through the link *)
Lemma shown_422_range : forall a b d, let x := shown_422 a b d in 0 <= c_r x < 256 /\ 0 <= c_g x < 256 /\ 0 <= c_b x < 256.
Proof. intros a b d. cbv zeta. unfold shown_422, spec_rgb. cbv zeta. cbn [c_r c_g c_b]. unfold clamp. change (2 ^ 8 - 1) with 255. lia. Qed.
Definition pack24 (x : rgb) : Z := c_r x + 2 ^ 8 * c_g x + 2 ^ 16 * c_b x.
Lemma pack24_slices : forall x, 0 <= c_r x < 256 -> 0 <= c_g x < 256 -> 0 <= c_b x < 256 ->
  slice 0 8 (pack24 x) = c_r x /\ slice 8 8 (pack24 x) = c_g x /\ slice 16 8 (pack24 x) = c_b x.
Proof.
  intros x R G B. unfold slice, pack24. change (2 ^ 0) with 1. change (2 ^ 8) with 256. change (2 ^ 16) with 65536. rewrite Z.div_1_r.
  replace (c_r x + 256 * c_g x + 65536 * c_b x) with (c_r x + (c_g x + 256 * c_b x) * 256) by ring.
  split; [|split].
  - rewrite Z.mod_add by lia. apply Z.mod_small. exact R.
  - rewrite Z.div_add, Z.div_small by lia. replace (0 + (c_g x + 256 * c_b x)) with (c_g x + c_b x * 256) by ring.
    rewrite Z.mod_add by lia. apply Z.mod_small. exact G.
  - change 65536 with (256 * 256). rewrite <- Z.div_div, Z.div_add by lia. rewrite (Z.div_small (c_r x)) by lia.
    replace (0 + (c_g x + 256 * c_b x)) with (c_g x + c_b x * 256) by ring. rewrite Z.div_add, Z.div_small by lia. apply Z.mod_small. exact B.
Qed.
Lemma yt_px_range : forall c n, 0 <= px_r (yt_px c n) < 256 /\ 0 <= px_g (yt_px c n) < 256 /\ 0 <= px_b (yt_px c n) < 256.
Proof.
  intros c n. pose proof (vy_colour_range c n) as V. cbv zeta in V. unfold yt_px.
  destruct (vy_sync (vy_run c n) (c n)) as [[de hs] vs]. exact V.
Qed.

Section Place.
Variable p : fparam.
Hypothesis lk : link_ok p.
(** Clock of the scan in which pixel [q] since the start is shown. *)
Definition place (q : nat) : nat :=
  let A := p_hres p * p_vres p in let z := Z.of_nat q in clk p (z / A) (z mod A / p_hres p) (z mod A mod p_hres p).
Lemma place_at : forall f y x q, 0 <= f -> 0 <= y < p_vres p -> 0 <= x < p_hres p ->
  Z.of_nat q = f * (p_hres p * p_vres p) + y * p_hres p + x -> place q = clk p f y x.
Proof.
  intros f y x q F Y X Q. unfold place. cbv zeta. set (A := p_hres p * p_vres p) in *.
  assert (B : 0 <= y * p_hres p + x < A) by (unfold A; nia).
  replace (Z.of_nat q mod A) with (y * p_hres p + x) by (apply (Z.mod_unique _ _ f); lia).
  replace (Z.of_nat q / A) with f by (apply (Z.div_unique _ _ _ (y * p_hres p + x)); lia).
  replace ((y * p_hres p + x) / p_hres p) with y by (apply (Z.div_unique _ _ _ x); lia).
  replace ((y * p_hres p + x) mod p_hres p) with x by (apply (Z.mod_unique _ _ y); lia). reflexivity.
Qed.
Lemma place_pixels : forall m, tx_de p m = true -> place (pixels_before p (m - 1)) = m.
Proof.
  intros m D. unfold tx_de in D. apply andb_prop in D as [D1 D2]. apply Nat.leb_le in D1.
  unfold spec_de in D2. apply andb_prop in D2 as [DX DY]. apply Z.ltb_lt in DX, DY.
  pose proof (pixels_before_closed p (lk_ok p lk) (m - 1)) as PB. cbv zeta in PB. replace (Z.of_nat (m - 1)) with (Z.of_nat m - 1) in PB by lia.
  destruct lk as [ok H1 H2 H3 H4 H5]. pose proof ok as OK. destruct OK as [? ? ? ? ? ? ? ?].
  set (z := Z.of_nat m - 1) in *. assert (0 <= z) by (unfold z; lia).
  rewrite (proj2 (Z.ltb_lt _ _) DY), Z.min_l in PB by lia.
  assert (X0 : 0 <= scan_x p z) by (apply Z.mod_pos_bound; lia). assert (Y0 : 0 <= scan_y p z) by (apply Z.mod_pos_bound; lia).
  assert (Q1 : 0 <= z / (p_hscan p + 1)) by (apply Z.div_pos; lia).
  assert (F0 : 0 <= z / (p_hscan p + 1) / (p_vscan p + 1)) by (apply Z.div_pos; lia).
  rewrite (place_at _ _ _ _ F0 (conj Y0 DY) (conj X0 DX) ltac:(rewrite PB; ring)).
  apply Nat2Z.inj. rewrite clk_z by (try assumption; constructor; assumption). unfold scan_x, scan_y.
  pose proof (Z.div_mod z (p_hscan p + 1) ltac:(lia)) as E1. pose proof (Z.div_mod (z / (p_hscan p + 1)) (p_vscan p + 1) ltac:(lia)) as E2.
  assert (E3 : z / (p_hscan p + 1) / (p_vscan p + 1) * (p_vscan p + 1) + z / (p_hscan p + 1) mod (p_vscan p + 1) = z / (p_hscan p + 1)) by lia.
  rewrite E3. unfold z in *. lia.
Qed.
End Place.

Lemma yt_link_joined : forall shift aw depth mem ra (i : nat -> ot_in), 0 <= aw -> length mem = 4%nat ->
  forall u R t0, enabled_with shift aw depth mem ra i u R t0 ->
  let p := timing_of R in link_ok p -> 0 < p_hres p * p_vres p < 2 ^ aw -> nth 9 R 0 / 2 ^ shift = p_hres p * p_vres p ->
  Z.even (p_hres p) = true ->
  forall E, clocks i ((p_hscan p + 1) * (p_vscan p + 1)) E -> (forall x, ot_ready (i x) = true) ->
  forall M junk, let st := ot_run shift aw depth mem ra i in
  let o n := ot_px shift aw M (junk n) (st (E n)) (i (E n)) in
  let dv n := ot_dv shift aw (st (E n)) (i (E n)) in
  let shown := yt_px (fun n => yt_core shift aw M (junk n) (st (E n)) (i (E n))) in
  let n0 := occurrences (fun x => ot_cd (i x)) 0 t0 in
  forall T, (n0 <= T)%nat -> (forall n, (T <= n)%nat -> px_de (o n) = true -> dv n = true) ->
  let late := (n0 + underflows o dv T)%nat in
  forall g, 1 <= g -> Z.of_nat T + 30 <= Z.of_nat late + 1 + g * ((p_vscan p + 1) * (p_hscan p + 1)) ->
  forall N, (N <= T + 6)%nat -> forall L Lmin raw s0, link_at N shown L Lmin raw s0 ->
  exists w D D', (forall k, (k < 3)%nat -> (L k / 10 + 7 < D <= L k / 10 + 15)%nat) /\
  Z.of_nat D' = g * ((p_vscan p + 1) * (p_hscan p + 1)) + Z.of_nat (late + 6) + Z.of_nat D - Z.of_nat N /\
  (forall n, (clk p 1 0 (p_hres p) <= n)%nat ->
   let q := rx_sp (rx_run s0 raw (n + D')) in
   sp_valid q = true /\ sp_de q = tx_de p n /\ sp_hsync q = tx_hs p n /\ sp_vsync q = tx_vs p n /\
   (tx_de p n = true ->
    let d := w (pixels_before p (n - 1)) in sp_r q = slice 0 8 d /\ sp_g q = slice 8 8 d /\ sp_b q = slice 16 8 d)) /\
  (forall f y x q, 0 <= f -> 0 <= y < p_vres p -> 1 <= x < p_hres p -> Z.of_nat q = f * (p_hres p * p_vres p) + y * p_hres p + x ->
   w q = pack24 (pixel_422 (fun j => M (picture_word shift aw R j)) (y * p_hres p + x - 1))).
Proof.
  intros shift aw depth mem ra i Haw HM u R t0 Hon p lk Hpix Hl EV E HE Hready M junk st o dv shown n0 T HT0 HT late g Hg HTg N HN L Lmin raw s0 Hlink.
  pose proof (lk_ok p lk) as ok. pose proof lk as LK. destruct LK as [_ H1 H2 H3 H4 H5].
  pose proof ok as OK. destruct OK as [? ? ? ? ? ? ? ?].
  set (c := fun n => yt_core shift aw M (junk n) (st (E n)) (i (E n))).
  set (pos := occurrences (fun m => vyi_valid (c m)) 0).
  assert (PH : forall n, (pos n + (if n0 <=? n then n0 else n) + underflows o dv n = n)%nat)
    by exact (pos_held shift aw depth mem ra i Haw HM u R t0 Hon ok E HE M junk).
  assert (PN : forall n, (pos n <= pos (S n) <= S (pos n))%nat) by (intros n; unfold pos; cbn [occurrences]; destruct (vyi_valid _); lia).
  assert (SH : forall n, px_de (o n) = tx_de p (pos n) /\ px_hs (o n) = tx_hs p (pos n) /\ px_vs (o n) = tx_vs p (pos n))
    by exact (shows_tx shift aw depth mem ra i Haw HM u R t0 Hon ok Hpix Hl ltac:(fold p; lia) E HE Hready M junk).
  assert (PL : forall n, (T <= n)%nat -> (pos n + late = n)%nat).
  { intros n Hn. assert (UF : underflows o dv n = underflows o dv T).
    { unfold underflows. replace n with (T + (n - T))%nat at 1 by lia. rewrite occ_app.
      assert (Z0 : occurrences (fun m => px_de (o m) && negb (dv m)) (0 + T) (n - T) = 0%nat).
      { apply occ_zero. intros t Ht. cbv beta. destruct (px_de (o t)) eqn:Q; [|reflexivity]. cbn [andb]. rewrite (HT t) by (lia || exact Q). reflexivity. }
      lia. }
    specialize (PH n). rewrite UF in PH. replace (n0 <=? n)%nat with true in PH by (symmetry; apply Nat.leb_le; lia). unfold late. lia. }
  set (w' := fun q => pack24 (px_rgb (shown (place p q + (late + 6))%nat))).
  destruct (link_late_at p lk w' shown (fun n => pos (n - 6)%nat) (T + 6) (late + 6)) with (g := g) (L := L) (Lmin := Lmin) (raw := raw) (s0 := s0) (N := N)
    as (D & B & P).
  - intros n. destruct (Nat.lt_ge_cases n 6) as [LT|GE].
    + left. f_equal. lia.
    + replace (S n - 6)%nat with (S (n - 6)) by lia. pose proof (PN (n - 6)%nat). lia.
  - intros n. destruct (Nat.lt_ge_cases n 6) as [LT|GE].
    + destruct (yt_px_early c n LT) as (A1 & A2 & A3). change (yt_px c) with shown in A1, A2, A3. rewrite A1, A2, A3. replace (n - 6)%nat with 0%nat by lia. repeat split.
    + destruct (yt_px_sync c (n - 6)) as (A1 & A2 & A3). cbv zeta in A1, A2, A3. replace (n - 6 + 6)%nat with n in A1, A2, A3 by lia.
      change (yt_px c) with shown in A1, A2, A3. rewrite A1, A2, A3. exact (SH (n - 6)%nat).
  - intros n. apply yt_px_range.
  - intros n Hn. pose proof (PL (n - 6)%nat ltac:(lia)). lia.
  - intros n Hn DE d. unfold d, w'.
    assert (TD : tx_de p (pos (n - 6)%nat) = true).
    { rewrite <- (proj1 (SH (n - 6)%nat)). destruct (yt_px_sync c (n - 6)) as (A1 & _). cbv zeta in A1. replace (n - 6 + 6)%nat with n in A1 by lia.
      change (yt_px c) with shown in A1. rewrite A1 in DE. exact DE. }
    rewrite (place_pixels p lk _ TD). replace (pos (n - 6) + (late + 6))%nat with n by (pose proof (PL (n - 6)%nat ltac:(lia)); lia).
    destruct (yt_px_range c n) as (A1 & A2 & A3). change (yt_px c) with shown in A1, A2, A3.
    destruct (pack24_slices (px_rgb (shown n)) A1 A2 A3) as (-> & -> & ->). auto.
  - exact Hg.
  - rewrite clk_z by (try exact lk; lia). nia.
  - exact HN.
  - exact Hlink.
  - set (HV := (p_vscan p + 1) * (p_hscan p + 1)) in *. pose proof (HV_pos p lk) as HP. fold HV in HP.
    pose proof (frames_nat p lk g ltac:(lia)) as HF. fold HV in HF. set (G := Z.to_nat (g * HV)) in *.
    set (A := p_hres p * p_vres p) in *.
    assert (GA : Z.of_nat (Z.to_nat (g * A)) = g * A) by (apply Z2Nat.id; nia).
    exists (fun q => w' (q + Z.to_nat (g * A))%nat), D, (G + (late + 6) + D - N)%nat. split; [exact B|]. split; [lia|]. split.
    + intros n Hn q.
      pose proof (clk_z p lk 1 0 (p_hres p) ltac:(lia) ltac:(lia) ltac:(lia)) as C1.
      pose proof (clk_z p lk (g + 1) 0 (p_hres p) ltac:(lia) ltac:(lia) ltac:(lia)) as Cg.
      assert (C : clk p (g + 1) 0 (p_hres p) = (clk p 1 0 (p_hres p) + G)%nat) by (apply Nat2Z.inj; rewrite Nat2Z.inj_add, HF, Cg, C1; unfold HV; ring).
      assert (N1 : (1 <= n)%nat) by (assert ((1 * (p_vscan p + 1) + 0) * (p_hscan p + 1) = HV) by (unfold HV; ring); lia).
      specialize (P (n + G)%nat ltac:(lia)). replace (n + G + (late + 6) - N + D)%nat with (n + (G + (late + 6) + D - N))%nat in P by lia. fold q in P.
      destruct (later_scan p lk g ltac:(lia) n N1) as (S1 & S2 & S3). cbv zeta in S1, S2, S3. fold HV in S1, S2, S3. fold G in S1, S2, S3. rewrite S1, S2, S3 in P.
      destruct P as (P1 & P2 & P3 & P4 & P5). split; [exact P1|]. split; [exact P2|]. split; [exact P3|]. split; [exact P4|].
      intros DE. specialize (P5 DE). cbv zeta in P5 |- *.
      replace (pixels_before p (n - 1) + Z.to_nat (g * A))%nat with (pixels_before p (n + G - 1)); [exact P5|].
      apply Nat2Z.inj. rewrite Nat2Z.inj_add, GA. replace (n + G - 1)%nat with (n - 1 + G)%nat by lia.
      pose proof (later_pixels p lk g ltac:(lia) (n - 1)) as PX. fold HV in PX. fold G in PX. exact PX.
    + intros f y x q Hf Hy Hx EQ. unfold w'. f_equal.
      rewrite (place_at p (f + g) y x (q + Z.to_nat (g * A))) by (try rewrite Nat2Z.inj_add, GA, EQ; fold A; lia).
      (* the pair that pixel x - 1 belongs to *)
      set (k := (x - 1) / 2). pose proof (Z.div_mod (x - 1) 2 ltac:(lia)) as DK. fold k in DK. pose proof (Z.mod_pos_bound (x - 1) 2 ltac:(lia)) as MK.
      apply Z.even_spec in EV. destruct EV as [h EH].
      assert (K0 : 0 <= k) by lia. assert (K1 : 2 * k + 1 < p_hres p) by lia.
      set (Q := ((f + g) * (p_vscan p + 1) + y) * (p_hscan p + 1)).
      assert (QG : g * HV <= Q) by (unfold Q, HV; nia).
      set (a := (Z.to_nat (1 + Q + 2 * k) + late)%nat). set (b := (Z.to_nat (1 + Q + 2 * k + 1) + late)%nat).
      assert (Pa : Z.of_nat (pos a) = 1 + Q + 2 * k) by (pose proof (PL a ltac:(unfold a; lia)); unfold a in *; lia).
      assert (Pb : Z.of_nat (pos b) = 1 + Q + 2 * k + 1) by (pose proof (PL b ltac:(unfold b; lia)); unfold b in *; lia).
      assert (DV : forall n j, Z.of_nat (pos n) = 1 + Q + j -> 0 <= j < p_hres p -> (T <= n)%nat -> dv n = true).
      { intros n j PJ J Tn. apply (HT n Tn). rewrite (proj1 (SH n)).
        replace (pos n) with (clk p (f + g) y j) by (apply Nat2Z.inj; rewrite clk_z by (try exact lk; lia); fold Q; lia).
        rewrite clk_de by (try exact lk; lia). apply andb_true_iff. split; apply Z.ltb_lt; lia. }
      destruct (pair_shown shift aw depth mem ra i Haw HM u R t0 Hon ok Hpix Hl ltac:(fold p; lia) E HE Hready M junk (f + g) y k a b ltac:(lia) Hy K0 K1 ltac:(fold p; lia) Pa
        (DV a (2 * k) Pa ltac:(lia) ltac:(unfold a; lia)) Pb (DV b (2 * k + 1) ltac:(lia) ltac:(lia) ltac:(unfold b; lia))) as [A1 A2].
      fold st p in A1, A2. change (yt_px _) with shown in A1, A2.
      assert (CX : Z.of_nat (clk p (f + g) y x) = 1 + Q + x) by (rewrite clk_z by (try exact lk; lia); reflexivity).
      assert (HALF : (y * p_hres p + x - 1) / 2 = y * h + k).
      { rewrite EH. replace (y * (2 * h) + x - 1) with (x - 1 + (y * h) * 2) by ring. rewrite Z.div_add by lia. fold k. lia. }
      unfold pixel_422. rewrite HALF. replace (2 * (y * h + k)) with (y * p_hres p + 2 * k) by (rewrite EH; ring).
      replace (y * p_hres p + 2 * k + 1) with (y * p_hres p + (2 * k + 1)) by ring.
      assert (x - 1 = 2 * k \/ x - 1 = 2 * k + 1) as [X|X] by lia.
      * replace (clk p (f + g) y x + (late + 6))%nat with (b + 6)%nat by (unfold b; lia). etransitivity; [exact A1|].
        replace (y * p_hres p + x - 1) with (y * p_hres p + 2 * k) by lia. reflexivity.
      * replace (clk p (f + g) y x + (late + 6))%nat with (b + 7)%nat by (unfold b; lia). etransitivity; [exact A2|].
        replace (y * p_hres p + x - 1) with (y * p_hres p + (2 * k + 1)) by lia. reflexivity.
Qed.

(** The receiver reports the resolution, and in its memory each line is one pixel further right than in the transmitter's:
    column [x >= 1] holds the converted pixel [x - 1] (nothing is said about column 0, which shows what the converter held before the line). *)
Theorem C120_registers_to_slot :
  forall shift txaw depth txmem txra (ti : nat -> ot_in), 0 <= txaw -> length txmem = 4%nat ->
  forall u R t0, enabled_with shift txaw depth txmem txra ti u R t0 ->
  let p := timing_of R in
  params_ok p -> 24 <= p_hres p -> p_hres p + 30 <= p_hscan p + 1 -> 1 <= p_vres p <= p_vscan p ->
  p_hres p < p_hs_start p -> p_vres p <= p_vs_start p < p_vs_end p -> Z.even (p_hres p) = true ->
  p_hres p * p_vres p < 2 ^ txaw -> nth 9 R 0 / 2 ^ shift = p_hres p * p_vres p ->
  forall E, clocks ti ((p_hscan p + 1) * (p_vscan p + 1)) E -> (forall x, ot_ready (ti x) = true) ->
  forall Mtx junk, let st := ot_run shift txaw depth txmem txra ti in
  let o n := ot_px shift txaw Mtx (junk n) (st (E n)) (ti (E n)) in
  let dv n := ot_dv shift txaw (st (E n)) (ti (E n)) in
  let shown := yt_px (fun n => yt_core shift txaw Mtx (junk n) (st (E n)) (ti (E n))) in
  let n0 := occurrences (fun x => ot_cd (ti x)) 0 t0 in
  forall T, (n0 <= T)%nat -> (forall n, (T <= n)%nat -> px_de (o n) = true -> dv n = true) ->
  let late := (n0 + underflows o dv T)%nat in
  forall g, 1 <= g -> Z.of_nat T + 30 <= Z.of_nat late + 1 + g * ((p_vscan p + 1) * (p_hscan p + 1)) ->
  forall N, (N <= T + 6)%nat -> forall L Lmin raw s0, link_at N shown L Lmin raw s0 ->
  forall k m, (1 <= k)%nat -> let F := (2 ^ k)%nat in p_hres p * p_vres p = Z.of_nat (F * m) ->
  exists D, (forall k, (k < 3)%nat -> (L k / 10 + 7 < D <= L k / 10 + 15)%nat) /\
  (forall n, Z.of_nat (late + 6) + Z.of_nat D + (g + 4) * ((p_vscan p + 1) * (p_hscan p + 1)) <= Z.of_nat (N + n) ->
   let r := rx_rd (rx_run s0 raw n) in rd_h r = nth 0 R 0 mod 2 ^ 11 /\ rd_v r = nth 4 R 0 mod 2 ^ 11) /\
  forall n aw align mem ra ns (i : nat -> cap_in), let dw := 32 * Z.of_nat F in
  forall K Ed B T0 w c, capturing n F 32 aw dw align mem ra ns i (pk_stream s0 raw) K Ed B m T0 w c ->
  let vsync_of v := 1 + (v * (p_vscan p + 1) + p_vs_start p) * (p_hscan p + 1) in
  Z.of_nat (N + occurrences (fun v => cap_pix (i v)) 0 T0) = vsync_of (g + 2) + Z.of_nat (late + 6 + D) + 1 ->
  let a := word_address aw align (slot_address n F 32 aw dw align mem ra ns i w c) in
  exists z, (w < z)%nat /\ slot_status n F 32 aw dw align mem ra ns i z c = 2 /\
  forall M, let M' := after M (collect (c_write n F 32 aw dw align mem ra (dma_init ns) i) w (z - w)) in
  (forall y x, 0 <= y < p_vres p -> 1 <= x < p_hres p ->
     let q := Z.to_nat (y * p_hres p + x) in
     let v := pixel_422 (fun j => Mtx (picture_word shift txaw R j)) (y * p_hres p + (x - 1)) in
     slice (32 * Z.of_nat (F - 1 - q mod F)) 32 (M' ((a + Z.of_nat (q / F)) mod 2 ^ aw)) = c_b v + 2 ^ 8 * c_g v + 2 ^ 16 * c_r v) /\
  (forall v, (forall j, (j < m)%nat -> v <> (a + Z.of_nat j) mod 2 ^ aw) -> M' v = M v).
Proof.
  intros shift txaw depth txmem txra ti Haw HM u R t0 Hon p ok H1 H2 H3 H4 H5 EV HLen Hl E HE Hready Mtx junk st o dv shown n0 T HT0 HT late g Hg HTg
    N HN L Lmin raw s0 Hlink k m Hk F HF.
  assert (lk : link_ok p) by (constructor; assumption).
  assert (Hpix : 0 < p_hres p * p_vres p < 2 ^ txaw) by nia.
  destruct (yt_link_joined shift txaw depth txmem txra ti Haw HM u R t0 Hon lk Hpix Hl EV E HE Hready Mtx junk T HT0 HT g Hg HTg N HN L Lmin raw s0 Hlink)
    as (w & D & D' & B & ED & P & WQ).
  cbv zeta in P, ED. change (occurrences (fun x => ot_cd (ti x)) 0 t0 + _ + 6)%nat with (late + 6)%nat in ED. fold p in P, ED, WQ.
  exists D. split; [exact B|]. split.
  { intros n Hn. apply (frame_resolution p lk w s0 raw D' 1 ltac:(lia) P). rewrite ED. rewrite !Nat2Z.inj_add in *.
    replace ((p_hscan p + 1) * (p_vscan p + 1)) with ((p_vscan p + 1) * (p_hscan p + 1)) by ring.
    set (HV := (p_vscan p + 1) * (p_hscan p + 1)) in *. replace ((g + 4) * HV) with (g * HV + 4 * HV) in Hn by ring. lia. }
  pose proof (frame_words p lk w s0 raw D' 1 ltac:(lia) P k m Hk HF) as W.
  intros n aw align mem ra ns i dw K Ed Bu T0 ww c CG vsync_of E0 a.
  assert (E1 : Z.of_nat (occurrences (fun v => cap_pix (i v)) 0 T0) = vsync_of (1 + 1) + Z.of_nat D' + 1).
  { rewrite ED. unfold vsync_of in *. rewrite !Nat2Z.inj_add in *.
    replace (((g + 2) * (p_vscan p + 1) + p_vs_start p) * (p_hscan p + 1)) with
      (((1 + 1) * (p_vscan p + 1) + p_vs_start p) * (p_hscan p + 1) + g * ((p_vscan p + 1) * (p_hscan p + 1))) in E0 by ring. lia. }
  destruct (frame_captured p lk (pk_stream s0 raw) (fun q => stored (w q)) 32 D' 1 ltac:(lia) (fun q => stored_range (w q)) ltac:(lia)
    k m HF W n aw align mem ra ns i K Ed Bu T0 ww c CG E1) as (z & Z1 & Z2 & Z3).
  exists z. split; [exact Z1|]. split; [exact Z2|]. intros M M'. destruct (Z3 M) as (f & A1 & A2 & A3). split; [|exact A3].
  intros y x Hy Hx q v. fold F in A2, HF |- *.
  assert (QB : 0 <= y * p_hres p + x < p_hres p * p_vres p) by nia.
  assert (Q : (q < F * m)%nat) by (unfold q; lia).
  etransitivity; [apply (A2 q Q)|].
  rewrite (WQ (Z.of_nat f) y x (f * (F * m) + q)%nat ltac:(lia) Hy Hx) by (rewrite Nat2Z.inj_add, Nat2Z.inj_mul, HF; unfold q; lia).
  replace (y * p_hres p + x - 1) with (y * p_hres p + (x - 1)) by ring. fold v. unfold stored.
  assert (V : 0 <= c_r v < 256 /\ 0 <= c_g v < 256 /\ 0 <= c_b v < 256) by apply shown_422_range.
  destruct (pack24_slices v) as (-> & -> & ->); try apply V. reflexivity.
Qed.
Print Assumptions C120_registers_to_slot.

(** The output of [ex_ot] (OutTopProps.v) with a memory that misses one clock in four: words 4 and 5 of the
    first line come in clocks 21 and 23, with an underflow between, and show in clocks 29 and 30. *)
Definition ex_yt_M (a : Z) : Z := (a * 37) mod 200 + 256 * ((a * 91 + 40) mod 256).
Definition ex_yt (n : nat) : vy_in := yt_core 2 8 ex_yt_M 12345 (ex_ot n) (ex_ot_in n).
Example C120_case :
  rises (fun n => vyi_de (ex_yt n)) 15 = true /\ vyi_valid (ex_yt 21) = true /\ vyi_valid (ex_yt 22) = false /\ vyi_valid (ex_yt 23) = true /\
  occurrences (fun n => vyi_valid (ex_yt n)) 15 6 = 4%nat /\ occurrences (fun n => vyi_valid (ex_yt n)) 15 8 = 5%nat /\
  (forall n, (15 < n <= 25)%nat -> rises (fun n => vyi_de (ex_yt n)) n = false) /\
  px_rgb (yt_px ex_yt 29) = {| c_r := 24; c_g := 46; c_b := 0 |} /\ px_rgb (yt_px ex_yt 30) = {| c_r := 61; c_g := 83; c_b := 0 |} /\
  px_rgb (yt_px ex_yt 29) = pixel_422 (fun j => ex_yt_M (picture_word 2 8 ex_ot_regs j)) 4 /\
  px_rgb (yt_px ex_yt 30) = pixel_422 (fun j => ex_yt_M (picture_word 2 8 ex_ot_regs j)) 5.
Proof.
  do 6 (split; [vm_compute; reflexivity|]). split; [|repeat split; vm_compute; reflexivity].
  intros n N. assert (Q : forallb (fun n => negb (rises (fun n => vyi_de (ex_yt n)) n)) (seq 16 10) = true) by (vm_compute; reflexivity).
  rewrite forallb_forall in Q. apply negb_true_iff, Q, in_seq. lia.
Qed.
(** Its registers meet the remaining hypotheses of the two theorems above ([ex_ot_on], [ex_ot_clocks] and [ex_ot_hyps] give the others). *)
Example C120_mode : Z.even (p_hres ex_mode) = true /\ p_hres ex_mode + 1 <= p_hscan ex_mode /\ p_vres ex_mode <= p_vscan ex_mode + 1.
Proof. repeat split; vm_compute; congruence. Qed.
