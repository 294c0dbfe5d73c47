(** Lemmas for C125: a moving picture seen through the link, and frames served to one slot after another. *)
From Coq Require Import ZArith List Bool Lia Arith.
From Verif Require Import Hdl Trace CdcProofs AnalysisModel TimingModel TimingSpec TimingProofs VideoOutModel VideoOutProofs
  HdmiModel HdmiProofs LinkModel LinkProofs LinkProps InDmaModel FifoModel FifoProofs FifoProps CaptureModel CaptureProofs CaptureProps
  FrameProofs FrameProps InDmaProofs InDmaProps GenlockProps PhyModel PhyProps StartupProofs StartupProps OutTopModel OutTopProofs OutTopProps
  OutSwapProps JoinProps CaptureRateProofs CaptureLiveProofs CaptureLiveProps FrameLiveProofs FairProofs FairProps SlotRegProps YccLinkModel YccLinkProps.
Import ListNotations.
Open Scope Z_scope.

Lemma pack_colour : forall r g b, 0 <= r < 256 -> 0 <= g < 256 -> 0 <= b < 256 ->
  colour (r + 2 ^ 8 * g + 2 ^ 16 * b) = {| CscModel.c_r := r; CscModel.c_g := g; CscModel.c_b := b |}.
Proof.
  intros r g b R G B. unfold colour, slice. change (2 ^ 0) with 1. change (2 ^ 8) with 256. change (2 ^ 16) with 65536. rewrite Z.div_1_r.
  f_equal.
  - replace (r + 256 * g + 65536 * b) with (r + (g + 256 * b) * 256) by ring. rewrite Z.mod_add by lia. apply Z.mod_small. lia.
  - replace (r + 256 * g + 65536 * b) with (r + (g + 256 * b) * 256) by ring. rewrite Z.div_add by lia. rewrite (Z.div_small r) by lia.
    replace (0 + (g + 256 * b)) with (g + b * 256) by ring. rewrite Z.mod_add by lia. apply Z.mod_small. lia.
  - replace (r + 256 * g + 65536 * b) with ((r + 256 * g) + b * 65536) by ring. rewrite Z.div_add by lia. rewrite (Z.div_small (r + 256 * g)) by lia.
    rewrite Z.add_0_l. apply Z.mod_small. lia.
Qed.

(** Place of the pixel number [q] in the scan. *)
Lemma pixel_place : forall h v f y x, 0 <= f -> 0 <= y < v -> 0 <= x < h ->
  let q := f * (h * v) + (y * h + x) in
  q / (h * v) = f /\ (q mod (h * v)) / h = y /\ (q mod (h * v)) mod h = x.
Proof.
  intros h v f y x F Y X q. assert (R : 0 <= y * h + x < h * v) by nia.
  assert (Q1 : q / (h * v) = f) by (unfold q; rewrite Z.div_add_l by lia; rewrite Z.div_small by lia; lia).
  assert (Q2 : q mod (h * v) = y * h + x) by (unfold q; rewrite Z.add_comm, Z.mod_add by lia; apply Z.mod_small; lia).
  rewrite Q1, Q2. split; [reflexivity|]. split.
  - rewrite Z.div_add_l by lia. rewrite Z.div_small by lia. lia.
  - rewrite Z.add_comm, Z.mod_add by lia. apply Z.mod_small. lia.
Qed.

Lemma moving_link : forall shift aw depth mem ra (i : nat -> ot_in), 0 <= aw -> length mem = 4%nat ->
  forall u p t0, enabled_moving shift aw depth mem ra i u p t0 ->
  link_ok p -> 0 < p_hres p * p_vres p < 2 ^ aw -> Z.of_nat depth <= p_hres p * p_vres p ->
  let HV := (p_hscan p + 1) * (p_vscan p + 1) in
  forall E, clocks i HV E -> (forall x, ot_ready (i x) = true) ->
  forall M junk, let st := ot_run shift aw depth mem ra i in
  let o n := ot_px shift aw M (junk n) (st (E n)) (i (E n)) in
  let dv n := ot_dv shift aw (st (E n)) (i (E n)) in
  let n0 := occurrences (fun x => ot_cd (i x)) 0 t0 in
  let pos n := Z.of_nat n - Z.of_nat n0 - Z.of_nat (underflows o dv n) in
  let regs t := ini_regs (ot_ini (st t)) in
  forall T, (n0 <= T)%nat -> (forall n, (T <= n)%nat -> px_de (o n) = true -> dv n = true) ->
  let late := (n0 + underflows o dv T)%nat in
  forall g, 1 <= g -> Z.of_nat T + 30 <= Z.of_nat late + 1 + g * ((p_vscan p + 1) * (p_hscan p + 1)) ->
  forall N, (N <= T)%nat -> forall L Lmin raw s0, link_at N o L Lmin raw s0 ->
  exists D D' w, (forall k, (k < 3)%nat -> (L k / 10 + 7 < D <= L k / 10 + 15)%nat) /\
  Z.of_nat D' = g * ((p_vscan p + 1) * (p_hscan p + 1)) + Z.of_nat late + Z.of_nat D - Z.of_nat N /\
  (forall n, (clk p 1 0 (p_hres p) <= n)%nat ->
   let q := rx_sp (rx_run s0 raw (n + D')) in
   sp_valid q = true /\ sp_de q = tx_de p n /\ sp_hsync q = tx_hs p n /\ sp_vsync q = tx_vs p n /\
   (tx_de p n = true ->
    let d := w (pixels_before p (n - 1)) in sp_r q = slice 0 8 d /\ sp_g q = slice 8 8 d /\ sp_b q = slice 16 8 d)) /\
  forall fs, let f := Z.of_nat fs + g in
   exists ta tb Tt, (Tt <= depth)%nat /\ (u <= ta)%nat /\ (u <= tb)%nat /\
   (forall n', (n0 <= n')%nat -> 5 <= f -> pos n' <= (f - 4) * HV -> (E n' <= ta)%nat) /\
   (forall n', (n0 <= n')%nat -> 4 <= f -> pos n' <= (f - 3) * HV -> (E n' <= tb)%nat) /\
   forall q : nat, Z.of_nat q < p_hres p * p_vres p ->
   colour (w (fs * Z.to_nat (p_hres p * p_vres p) + q)%nat) =
   colour (M (picture_word shift aw (regs (if (q <? Tt)%nat then ta else tb)) (Z.of_nat q))).
Proof.
  intros shift aw depth mem ra i Haw HM u p t0 Hon lk Hpix Hdepth HV E HE Hready M junk st o dv n0 pos regs T HT0 HT late g Hg HTg N HN L Lmin raw s0 Hlink.
  pose proof (lk_ok p lk) as ok.
  destruct (C113_frames_while_moving shift aw depth mem ra i Haw HM u p t0 Hon ok Hpix Hdepth E HE Hready M junk) as (G1 & G2 & G3).
  destruct (moving_held0 shift aw depth mem ra i u p t0 HM Hon _ E HE M junk) as [_ B0].
  assert (B0' : underflows o dv n0 = 0%nat) by exact B0. clear B0.
  assert (G1' : forall n, pos n <= 0 -> px_de (o n) = false /\ px_hs (o n) = false /\ px_vs (o n) = false) by exact G1. clear G1.
  assert (G2' : forall n f y x, 0 <= f -> 0 <= y < p_vscan p + 1 -> 0 <= x < p_hscan p + 1 ->
    pos n = 1 + (f * (p_vscan p + 1) + y) * (p_hscan p + 1) + x ->
    px_de (o n) = (x <? p_hres p) && (y <? p_vres p) /\
    px_hs (o n) = (p_hs_start p <=? x) && (x <? p_hs_end p) /\
    px_vs (o n) = (p_vs_start p <=? y) && (y <? p_vs_end p)) by exact G2. clear G2.
  set (H := p_hscan p + 1) in *. set (V := p_vscan p + 1) in *.
  assert (H0 : 0 < H) by (unfold H; destruct ok; lia). assert (V0 : 0 < V) by (unfold V; destruct ok; lia).
  assert (HR : p_hres p < H /\ p_vres p <= V /\ 0 < p_hres p /\ 0 < p_vres p) by (unfold H, V; destruct lk, ok; lia).
  assert (UFT : forall n, (T <= n)%nat -> underflows o dv n = underflows o dv T).
  { intros n Hn. induction Hn as [|n Hn IH]; [reflexivity|].
    change (underflows o dv (S n)) with (underflows o dv n + if px_de (o n) && negb (dv n) then 1 else 0)%nat. rewrite IH.
    destruct (px_de (o n)) eqn:DE; [|cbn; lia]. rewrite (HT n Hn DE). cbn. lia. }
  assert (LT : (late <= T)%nat).
  { unfold late. assert (underflows o dv T <= underflows o dv n0 + (T - n0))%nat; [|lia].
    assert (K : forall d, (underflows o dv (n0 + d) <= underflows o dv n0 + d)%nat).
    { induction d as [|d IH]; [rewrite Nat.add_0_r; lia|]. rewrite Nat.add_succ_r.
      change (underflows o dv (S (n0 + d))) with (underflows o dv (n0 + d) + if px_de (o (n0 + d)%nat) && negb (dv (n0 + d)%nat) then 1 else 0)%nat.
      destruct (px_de _ && _); lia. }
    specialize (K (T - n0)%nat). replace (n0 + (T - n0))%nat with T in K by lia. exact K. }
  assert (POSL : forall n, (T <= n)%nat -> pos n = Z.of_nat n - Z.of_nat late) by (intros n Hn; unfold pos, late; rewrite (UFT n Hn); lia).
  set (ps := fun n => Z.to_nat (pos n)).
  assert (SH : forall n, px_de (o n) = tx_de p (ps n) /\ px_hs (o n) = tx_hs p (ps n) /\ px_vs (o n) = tx_vs p (ps n)).
  { intros n. destruct (Z.le_gt_cases (pos n) 0) as [P0|P0].
    - destruct (G1' n P0) as (-> & -> & ->). replace (ps n) with 0%nat by (unfold ps; lia). auto.
    - set (k := pos n - 1).
      assert (KE : k = (k / H / V * V + k / H mod V) * H + k mod H).
      { pose proof (Z.div_mod k H ltac:(lia)). pose proof (Z.div_mod (k / H) V ltac:(lia)).
        replace (k / H / V * V + k / H mod V) with (k / H) by lia. lia. }
      destruct (G2' n (k / H / V) (k / H mod V) (k mod H)) as (-> & -> & ->).
      + apply Z.div_pos; [apply Z.div_pos; unfold k; lia|lia].
      + apply Z.mod_pos_bound. lia.
      + apply Z.mod_pos_bound. lia.
      + fold H V. unfold k in *. lia.
      + unfold tx_de, tx_hs, tx_vs, spec_de, spec_hsync, spec_vsync, scan_x, scan_y. fold H V.
        replace (1 <=? ps n)%nat with true by (symmetry; apply Nat.leb_le; unfold ps; lia).
        replace (Z.of_nat (ps n) - 1) with k by (unfold ps, k; lia). auto. }
  assert (RG : forall n, 0 <= px_r (o n) < 256 /\ 0 <= px_g (o n) < 256 /\ 0 <= px_b (o n) < 256).
  { intros n. unfold o, ot_px, vt_px. cbv zeta. cbn [tx_px px_r px_g px_b]. repeat split; apply slice8. }
  set (Np := p_hres p * p_vres p) in *.
  set (wu := fun q : nat => let qz := Z.of_nat q in
    let n := (late + clk p (qz / Np) (qz mod Np / p_hres p) ((qz mod Np) mod p_hres p))%nat in
    px_r (o n) + 2 ^ 8 * px_g (o n) + 2 ^ 16 * px_b (o n)).
  assert (WU : forall q f y x, 0 <= f -> 0 <= y < p_vres p -> 0 <= x < p_hres p -> Z.of_nat q = f * Np + (y * p_hres p + x) ->
    colour (wu q) = {| CscModel.c_r := px_r (o (late + clk p f y x)%nat); CscModel.c_g := px_g (o (late + clk p f y x)%nat); CscModel.c_b := px_b (o (late + clk p f y x)%nat) |}).
  { intros q f y x F Y X Q. unfold wu. cbv zeta. rewrite Q. pose proof (pixel_place (p_hres p) (p_vres p) f y x F Y X) as PL. cbv zeta in PL. fold Np in PL. destruct PL as (-> & -> & ->).
    destruct (RG (late + clk p f y x)%nat) as (R1 & R2 & R3). apply pack_colour; assumption. }
  assert (TC : forall f, g <= f -> (T <= late + clk p f 0 0)%nat).
  { intros f F. pose proof (clk_z p lk f 0 0 ltac:(lia) ltac:(lia) ltac:(lia)) as CZ. fold H V in CZ, HTg.
    assert (g * (V * H) <= f * (V * H)) by (apply Z.mul_le_mono_nonneg_r; nia). nia. }
  destruct (link_late_at p lk wu o ps T late) with (g := g) (L := L) (Lmin := Lmin) (raw := raw) (s0 := s0) (N := N) as (D & B & P); try assumption.
  { intros n. unfold ps, pos. change (underflows o dv (S n)) with (underflows o dv n + if px_de (o n) && negb (dv n) then 1 else 0)%nat.
    destruct (px_de (o n) && negb (dv n)); [left|]; [lia|].
    destruct (Z.le_gt_cases 0 (Z.of_nat n - Z.of_nat n0 - Z.of_nat (underflows o dv n))); [right|left]; lia. }
  { intros n Hn. unfold ps. rewrite (POSL n Hn). lia. }
  { intros n Hn DE. cbv zeta. destruct (SH n) as (S1 & _). rewrite DE in S1. symmetry in S1. unfold tx_de in S1. apply andb_prop in S1 as [P1 S1]. apply Nat.leb_le in P1.
    set (k := Z.of_nat (ps n) - 1) in *. unfold spec_de, scan_x, scan_y in S1. fold H V in S1. apply andb_prop in S1 as [X1 Y1]. apply Z.ltb_lt in X1, Y1.
    pose proof (Z.mod_pos_bound k H ltac:(lia)) as XB. pose proof (Z.mod_pos_bound (k / H) V ltac:(lia)) as YB.
    assert (F0 : 0 <= k / H / V) by (apply Z.div_pos; [apply Z.div_pos; unfold k; lia|lia]).
    assert (KE : k = (k / H / V * V + k / H mod V) * H + k mod H).
    { pose proof (Z.div_mod k H ltac:(lia)). pose proof (Z.div_mod (k / H) V ltac:(lia)).
      replace (k / H / V * V + k / H mod V) with (k / H) by lia. lia. }
    pose proof (pixels_before_closed p ok (ps n - 1)) as PB. cbv zeta in PB. replace (Z.of_nat (ps n - 1)) with k in PB by (unfold k; lia).
    unfold scan_x, scan_y in PB. fold H V Np in PB. rewrite (proj2 (Z.ltb_lt _ _) Y1) in PB. rewrite Z.min_l in PB by lia.
    pose proof (WU _ _ _ _ F0 (conj (proj1 YB) Y1) (conj (proj1 XB) X1) PB) as W1.
    assert (EN : (late + clk p (k / H / V) (k / H mod V) (k mod H))%nat = n).
    { apply Nat2Z.inj. rewrite Nat2Z.inj_add, clk_z by (try exact lk; lia). fold H V. pose proof (POSL n Hn). unfold k, ps in KE. unfold k, ps in P1 |- *. lia. }
    rewrite EN in W1. unfold colour in W1. injection W1 as -> -> ->. auto. }
  { rewrite clk_z by (try exact lk; lia). fold H V in HTg |- *. nia. }
  set (HVv := V * H) in *. pose proof (HV_pos p lk) as HP. fold V H in HP. fold HVv in HP.
  pose proof (frames_nat p lk g ltac:(lia)) as HF. fold V H in HF. fold HVv in HF. set (G := Z.to_nat (g * HVv)) in *.
  set (w := fun q => wu (q + Z.to_nat (g * Np))%nat).
  assert (NP : Z.of_nat (Z.to_nat (g * Np)) = g * Np) by (apply Z2Nat.id; nia).
  exists D, (G + late + D - N)%nat, w. split; [exact B|]. split; [lia|]. split.
  - intros n Hn q.
    pose proof (clk_z p lk 1 0 (p_hres p) ltac:(lia) ltac:(lia) ltac:(lia)) as C1.
    pose proof (clk_z p lk (g + 1) 0 (p_hres p) ltac:(lia) ltac:(lia) ltac:(lia)) as Cg.
    assert (C : clk p (g + 1) 0 (p_hres p) = (clk p 1 0 (p_hres p) + G)%nat) by (apply Nat2Z.inj; rewrite Nat2Z.inj_add, HF, Cg, C1; unfold HVv, H, V; ring).
    assert (N1 : (1 <= n)%nat) by (assert ((1 * (p_vscan p + 1) + 0) * (p_hscan p + 1) = HVv) by (unfold HVv, H, V; ring); lia).
    specialize (P (n + G)%nat ltac:(lia)). replace (n + G + late - N + D)%nat with (n + (G + late + D - N))%nat in P by lia. fold q in P.
    destruct (later_scan p lk g ltac:(lia) n N1) as (S1 & S2 & S3). cbv zeta in S1, S2, S3. fold V H in S1, S2, S3. fold HVv in S1, S2, S3. fold G in S1, S2, S3. rewrite S1, S2, S3 in P.
    destruct P as (P1 & P2 & P3 & P4 & P5). split; [exact P1|]. split; [exact P2|]. split; [exact P3|]. split; [exact P4|].
    intros DE. specialize (P5 DE). cbv zeta in P5 |- *.
    assert (WE : wu (pixels_before p (n + G - 1)) = w (pixels_before p (n - 1))); [|rewrite WE in P5; exact P5].
    unfold w. f_equal. apply Nat2Z.inj. rewrite Nat2Z.inj_add, NP. replace (n + G - 1)%nat with (n - 1 + G)%nat by lia.
    pose proof (later_pixels p lk g ltac:(lia) (n - 1)) as PX. fold V H in PX. fold HVv in PX. fold G in PX. exact PX.
  - intros fs f.
    assert (CR : forall f' y x, g <= f' -> 0 <= y < V -> 0 <= x < H ->
      pos (late + clk p f' y x)%nat = 1 + (f' * V + y) * H + x /\ (T <= late + clk p f' y x)%nat).
    { intros f' y x F Y X. pose proof (clk_z p lk f' y x ltac:(lia) ltac:(lia) ltac:(lia)) as CZ. pose proof (clk_z p lk f' 0 0 ltac:(lia) ltac:(lia) ltac:(lia)) as C0.
      fold V H in CZ, C0. pose proof (TC f' F) as TF. assert (TL : (T <= late + clk p f' y x)%nat) by nia. split; [|exact TL]. rewrite (POSL _ TL), Nat2Z.inj_add, CZ. lia. }
    destruct (CR f 0 0 ltac:(lia) ltac:(lia) ltac:(lia)) as [PF _].
    destruct (G3 f (late + clk p f 0 0)%nat ltac:(lia)) as (ta & tb & Tt & A1 & _ & A2 & A3 & A4 & A5 & A6).
    { change (f * HV < pos (late + clk p f 0 0)%nat <= (f + 1) * HV). rewrite PF. unfold HV. nia. }
    exists ta, tb, Tt. split; [exact A1|]. split; [exact A2|]. split; [exact A3|]. split; [exact A4|]. split; [exact A5|].
    intros q Q. set (y := Z.of_nat q / p_hres p). set (x := Z.of_nat q mod p_hres p).
    assert (QE : Z.of_nat q = y * p_hres p + x) by (pose proof (Z.div_mod (Z.of_nat q) (p_hres p) ltac:(lia)); unfold x, y; lia).
    assert (XB : 0 <= x < p_hres p) by (apply Z.mod_pos_bound; lia).
    assert (YB : 0 <= y < p_vres p) by (split; [apply Z.div_pos; lia|apply Z.div_lt_upper_bound; unfold Np in Q; lia]).
    assert (CW : colour (w (fs * Z.to_nat Np + q)%nat) = _) by (unfold w; apply (WU _ f y x); [lia|exact YB|exact XB|]; rewrite !Nat2Z.inj_add, Nat2Z.inj_mul, NP, Z2Nat.id by lia; unfold f; lia).
    rewrite CW. destruct (CR f y x ltac:(lia) ltac:(lia) ltac:(lia)) as [PQ TQ].
    destruct (G2' _ f y x ltac:(lia) ltac:(fold V; lia) ltac:(fold H; lia) PQ) as (DE & _).
    rewrite (proj2 (Z.ltb_lt _ _) (proj2 XB)), (proj2 (Z.ltb_lt _ _) (proj2 YB)) in DE.
    destruct (A6 (late + clk p f y x)%nat y x YB XB PQ (HT _ TQ DE)) as (R1 & R2 & R3).
    assert (R1' : px_r (o (late + clk p f y x)%nat) = _) by exact R1. assert (R2' : px_g (o (late + clk p f y x)%nat) = _) by exact R2. assert (R3' : px_b (o (late + clk p f y x)%nat) = _) by exact R3.
    rewrite R1', R2', R3', <- QE. replace (Z.of_nat q <? Z.of_nat Tt) with (q <? Tt)%nat by (destruct (Nat.ltb_spec q Tt), (Z.ltb_spec (Z.of_nat q) (Z.of_nat Tt)); lia || reflexivity).
    unfold colour, slice. change (2 ^ 0) with 1. rewrite Z.div_1_r. reflexivity.
Qed.

(** What the receiver's clocks, memory and software are assumed to do, from [T0] on: [streaming] (C98) without the
    assumption that frames of [m] words arrive. *)
Record serving (n : Z) (F : nat) (lw aw dw align : Z) (mem : list (bool * list Z)) (ra : Z) (ns : nat) (i : nat -> cap_in)
    (X : nat -> pk_in) (K E B m T0 : nat) : Prop := {
  sv_depth : 1 <= n; sv_mem : Z.of_nat (length mem) = 2 ^ n; sv_aw : 0 < aw; sv_align : 0 <= align; sv_slots : (1 <= ns)%nat;
  (** the packer is fed by the receiver in the pix clock, and both clocks run *)
  sv_stream : forall t, cap_pix (i t) = true -> cap_pk (i t) = X (occurrences (fun u => cap_pix (i u)) 0 t);
  sv_sys : keeps_running (fun t => cap_sys (i t)); sv_pix : keeps_running (fun t => cap_pix (i t));
  (** the memory takes a word once in [K + 1] clocks and is done [E] clocks after the last *)
  sv_pause : runs_bounded (fun t => cap_sys (i t)) (fun t => negb (cap_mready (i t))) K;
  sv_drain : runs_bounded (fun t => cap_sys (i t))
    (fun t => cap_wbusy (i t) && match c_write n F lw aw dw align mem ra (dma_init ns) i t with None => true | Some _ => false end) E;
  (** the words come slowly enough for that and for the FIFO *)
  sv_rate : slow_enough F X (fun t => cap_pix (i t)) (fun t => cap_sys (i t)) K E B;
  sv_fifo : (B + E + K + 5 < (K + 1) * (2 ^ Z.to_nat n - 2))%nat;
  (** software programs the right frame size and leaves the registers of loaded slots alone *)
  sv_size : forall t, (T0 <= t)%nat -> Z.of_nat m = size_words aw align (cap_size (i t));
  sv_polite : forall t j, cap_sys (i t) = true -> Z.odd (slot_status n F lw aw dw align mem ra ns i t j) = true ->
    match cap_sw (i t) with SwNone => True | SwStatus k _ => k <> j | SwAddr k _ => k <> j end
}.

(** Software writes [addr] to the address register of slot [c] and loads the slot at [w]. *)
Record programs (n : Z) (F : nat) (lw aw dw align : Z) (mem : list (bool * list Z)) (ra : Z) (ns : nat) (i : nat -> cap_in)
    (K E B T0 w c : nat) (addr : Z) : Prop := {
  pg_slot : (c < 2)%nat; pg_range : (c < ns)%nat;
  (** the words that were on their way at [T0] are gone *)
  pg_order : (T0 <= w)%nat; pg_after : (B + 2 * (E + K) + 10 <= occurrences (fun t => cap_sys (i t)) T0 (w - T0))%nat;
  (** status bit 0 is set at [w] *)
  pg_loads : cap_sys (i w) = true /\ exists v, cap_sw (i w) = SwStatus c v /\ Z.odd v = true;
  (** the last write to the address register was that of [addr], and the slot has not been loaded since *)
  pg_addr : exists t1, (t1 < w)%nat /\ cap_sys (i t1) = true /\ cap_sw (i t1) = SwAddr c addr /\
    (forall t, (t1 < t < w)%nat -> Z.odd (slot_status n F lw aw dw align mem ra ns i t c) = false) /\
    (forall t v', (t1 < t < w)%nat -> cap_sys (i t) = true -> cap_sw (i t) <> SwAddr c v')
}.

Lemma frame_served : forall p : fparam, link_ok p -> forall (X : nat -> pk_in) (px : nat -> Z) lw D g, 0 <= lw -> (forall q, 0 <= px q < 2 ^ lw) -> 0 <= g ->
  forall k m, let F := (2 ^ k)%nat in p_hres p * p_vres p = Z.of_nat (F * m) ->
  (forall f t1 t2, g + 2 <= Z.of_nat f ->
   let vsync_of v := 1 + (v * (p_vscan p + 1) + p_vs_start p) * (p_hscan p + 1) in
   Z.of_nat t1 = vsync_of (Z.of_nat f - 1) + Z.of_nat D -> Z.of_nat t2 = vsync_of (Z.of_nat f) + Z.of_nat D ->
   collect (word_out F X) (t1 + 1) (t2 - t1) =
   map (fun j => (Nat.eqb j 0, rev (map (fun q => px (f * (F * m) + q)%nat) (seq (F * j) F)))) (seq 0 m)) ->
  forall n aw align mem ra ns (i : nat -> cap_in), let dw := lw * Z.of_nat F in
  forall K E B T0, serving n F lw aw dw align mem ra ns i X K E B m T0 ->
  let vsync_of v := 1 + (v * (p_vscan p + 1) + p_vs_start p) * (p_hscan p + 1) in
  Z.of_nat (occurrences (fun u => cap_pix (i u)) 0 T0) = vsync_of (g + 1) + Z.of_nat D + 1 ->
  forall w c addr, programs n F lw aw dw align mem ra ns i K E B T0 w c addr ->
  let a := (addr / 2 ^ align) mod 2 ^ aw in
  exists x z, (w < x < z)%nat /\ (forall t, (w < t < z)%nat -> Z.odd (slot_status n F lw aw dw align mem ra ns i t c) = true) /\
  slot_status n F lw aw dw align mem ra ns i z c = 2 /\
  forall M, let M' := after M (collect (c_write n F lw aw dw align mem ra (dma_init ns) i) x (z - x)) in
  exists f, g + 2 <= Z.of_nat f /\
  (forall q, (q < F * m)%nat ->
     slice (lw * Z.of_nat (F - 1 - q mod F)) lw (M' ((a + Z.of_nat (q / F)) mod 2 ^ aw)) = px (f * (F * m) + q)%nat) /\
  (forall v, (forall j, (j < m)%nat -> v <> (a + Z.of_nat j) mod 2 ^ aw) -> M' v = M v).
Proof.
  intros p lk X px lw D g W PX Hg k m F HF P n aw align mem ra ns i dw K E B T0 SV vsync_of E0 w c addr PG a.
  assert (lk' := lk). destruct lk as [ok H1 H2 H3 H4 H5].
  cbv zeta in P. set (g2 := Z.to_nat (g + 2)). assert (G2 : Z.of_nat g2 = g + 2) by (unfold g2; lia).
  assert (M1 : (1 <= m)%nat) by (destruct m; [rewrite Nat.mul_0_r in HF; nia|lia]).
  assert (VN : forall v, 0 <= v -> 0 <= vsync_of v).
  { intros v G. unfold vsync_of. pose proof (Z.mul_nonneg_nonneg v (p_vscan p + 1) G ltac:(lia)).
    pose proof (Z.mul_nonneg_nonneg (v * (p_vscan p + 1) + p_vs_start p) (p_hscan p + 1) ltac:(lia) ltac:(lia)). lia. }
  set (b := fun f => (Z.to_nat (vsync_of (Z.of_nat f + (g + 1))%Z) + D + 1)%nat).
  set (words := fun f j => rev (map (fun q => px ((f + g2) * (F * m) + q)%nat) (seq (F * j) F))).
  assert (HB : forall f, (b f <= b (S f))%nat /\ collect (word_out F X) (b f) (b (S f) - b f) = map (fun j => (Nat.eqb j 0, words f j)) (seq 0 m)).
  { intros f. assert (LE : (b f <= b (S f))%nat).
    { unfold b. assert (vsync_of (Z.of_nat f + (g + 1)) <= vsync_of (Z.of_nat (S f) + (g + 1))).
      { unfold vsync_of. apply Z.add_le_mono_l, Z.mul_le_mono_nonneg_r; [lia|]. apply Z.add_le_mono_r, Z.mul_le_mono_nonneg_r; lia. }
      pose proof (VN (Z.of_nat f + (g + 1)) ltac:(lia)). lia. }
    split; [exact LE|]. unfold words. rewrite <- (P (f + g2)%nat (b f - 1)%nat (b (S f) - 1)%nat).
    - f_equal; unfold b in *; lia.
    - lia.
    - pose proof (VN (Z.of_nat f + (g + 1)) ltac:(lia)) as V. unfold b. replace (Z.of_nat (f + g2) - 1) with (Z.of_nat f + (g + 1)) by lia. unfold vsync_of in *. lia.
    - pose proof (VN (Z.of_nat (S f) + (g + 1)) ltac:(lia)) as V. unfold b. replace (Z.of_nat (f + g2)) with (Z.of_nat (S f) + (g + 1)) by lia. unfold vsync_of in *. lia. }
  assert (B0 : occurrences (fun u => cap_pix (i u)) 0 T0 = b O).
  { unfold b. change (Z.of_nat 0 + (g + 1)) with (g + 1). pose proof (VN (g + 1) ltac:(lia)). lia. }
  destruct SV as [N HM Haw Hal NS HX Hsys Hpix S1 S2 S3 HD SZ POL].
  assert (ST : streaming n F lw aw dw align mem ra ns i X K E B b m words T0) by (constructor; assumption).
  destruct PG as [C2 C TW HW (SY & v & SW & V) (t1 & TL & A1 & A2 & A3 & A4)].
  destruct (C121_programmed_buffer n F lw aw dw align mem ra ns i X K E B b m words T0 ST Hal w c v C2 C TW HW SY SW V t1 addr TL A1 A2 A3 A4) as (x & z & XZ & LD & SS & MM).
  exists x, z. split; [exact XZ|]. split; [exact LD|]. split; [exact SS|]. intros M M'.
  destruct (MM M) as (f & Q1 & Q2). exists (f + g2)%nat. split; [lia|]. split; [|exact Q2].
  intros q Q. assert (F0 : F <> 0%nat) by (apply Nat.pow_nonzero; lia).
  assert (J : (q / F < m)%nat) by (apply Nat.div_lt_upper_bound; [exact F0|exact Q]).
  pose proof (Nat.mod_upper_bound q F F0) as QM. pose proof (Nat.div_mod q F F0) as DM.
  unfold M', a. rewrite (Q1 (q / F)%nat J), joined_lanes. unfold words.
  set (l := rev (map (fun q => px ((f + g2) * (F * m) + q)%nat) (seq (F * (q / F)) F))).
  assert (LL : length l = F) by (unfold l; rewrite rev_length, map_length, seq_length; reflexivity).
  assert (RG : forall v, In v l -> 0 <= v < 2 ^ lw).
  { intros v' V'. apply in_rev in V'. apply in_map_iff in V' as (u & <- & _). apply PX. }
  pose proof (lanes_range lw l W RG) as LR. rewrite LL in LR. fold dw in LR. rewrite Z.mod_small by exact LR.
  rewrite (lanes_slice lw l W RG) by lia. unfold l. rewrite rev_nth by (rewrite map_length, seq_length; lia).
  rewrite map_length, seq_length. replace (F - S (F - 1 - q mod F))%nat with (q mod F)%nat by lia.
  rewrite (nth_indep _ 0 (px ((f + g2) * (F * m) + 0)%nat)) by (rewrite map_length, seq_length; lia).
  rewrite (map_nth (fun q => px ((f + g2) * (F * m) + q)%nat)). rewrite seq_nth by lia. f_equal. lia.
Qed.
