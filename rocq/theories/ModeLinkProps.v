(** C129: a change of mode, seen at the receiver. *)
From Coq Require Import ZArith List Bool Lia Arith.
From Verif Require Import Hdl Trace CdcProofs AnalysisModel TimingModel TimingSpec TimingProofs VideoOutModel VideoOutProofs
  HdmiModel HdmiProofs LinkModel LinkProofs LinkProps InDmaModel FifoModel FifoProofs FifoProps CaptureModel CaptureProofs CaptureProps
  FrameProofs FrameProps InDmaProofs InDmaProps GenlockProps PhyModel PhyProps StartupProofs StartupProps OutTopModel OutTopProofs OutTopProps
  OutSwapProps JoinProps CaptureRateProofs CaptureLiveProofs CaptureLiveProps FrameLiveProofs FairProofs FairProps SlotRegProps CscModel CscSpec YccPathModel YccPathProps YccLinkModel YccLinkProps
  OutLiveProps StreamLinkProofs HdmiProps StreamLinkProps ModeProofs ModeProps ModeRunProps ModeLinkProofs.
Import ListNotations.
Open Scope Z_scope.

(** From the first frame that begins after [n2] the receiver sees the mode and the picture of [R]. *)
Lemma mode_link : forall shift aw depth mem ra (i : nat -> ot_in), 0 <= aw -> length mem = 4%nat ->
  forall u t0, enabled_from shift aw depth mem ra i u t0 ->
  let st := ot_run shift aw depth mem ra i in
  forall Hm Fx E, clocks i Hm E -> (forall x, ot_ready (i x) = true) ->
  (forall t v, ini_out (ot_ini (st t)) = Some v -> whole_set shift aw depth v /\ Hm <= frame_len v <= Fx) ->
  forall M junk,
  let o n := ot_px shift aw M (junk n) (st (E n)) (i (E n)) in
  let dv n := ot_dv shift aw (st (E n)) (i (E n)) in
  let n0 := occurrences (fun x => ot_cd (i x)) 0 t0 in
  let moved a n := Z.of_nat n - Z.of_nat a - (Z.of_nat (underflows o dv n) - Z.of_nat (underflows o dv a)) in
  forall w R, (forall x, (w <= x)%nat -> ini_regs (ot_ini (st x)) = R) ->
  forall n1 n2, (n0 <= n1 <= n2)%nat -> (w <= E n1)%nat -> 5 * Fx < moved n1 n2 ->
  (forall n, (n2 <= n)%nat -> px_de (o n) = true -> dv n = true) ->
  let p := timing_of R in link_ok p ->
  forall N, (N <= n2)%nat -> forall L Lmin raw s0, link_at N o L Lmin raw s0 ->
  exists F0 D D', (n2 < F0)%nat /\ Z.of_nat F0 <= Z.of_nat n2 + frame_len R /\
  (forall k, (k < 3)%nat -> (L k / 10 + 7 < D <= L k / 10 + 15)%nat) /\ Z.of_nat D' = Z.of_nat F0 + Z.of_nat D - 1 - Z.of_nat N /\
  let pic q := M (picture_word shift aw R (Z.of_nat q mod (p_hres p * p_vres p))) in
  forall n, (clk p 2 0 (p_hres p) <= n)%nat ->
  let q := rx_sp (rx_run s0 raw (n + D')) in
  sp_valid q = true /\ sp_de q = tx_de p n /\ sp_hsync q = tx_hs p n /\ sp_vsync q = tx_vs p n /\
  (tx_de p n = true ->
   let d := pic (pixels_before p (n - 1)) in sp_r q = slice 0 8 d /\ sp_g q = slice 8 8 d /\ sp_b q = slice 16 8 d).
Proof.
  intros shift aw depth mem ra i Haw HM u t0 Hon st Hm Fx E HE Hready Hsets M junk o dv n0 moved w R HR n1 n2 HN W MV FED p lk N HNn L Lmin raw s0 Hlink.
  destruct (C127_settles_partial shift aw depth mem ra i Haw HM u t0 Hon Hm Fx E HE Hready Hsets M junk w R HR n1 n2 HN W MV) as (ph & PH & SH).
  change (forall n, (n2 <= n)%nat -> forall f y x, 0 <= f -> 0 <= y < p_vscan p + 1 -> 0 <= x < p_hscan p + 1 ->
    ph + moved n2 n = (f * (p_vscan p + 1) + y) * (p_hscan p + 1) + x ->
    px_de (o n) = (x <? p_hres p) && (y <? p_vres p) /\
    px_hs (o n) = (p_hs_start p <=? x) && (x <? p_hs_end p) /\
    px_vs (o n) = (p_vs_start p <=? y) && (y <? p_vs_end p) /\
    (dv n = true -> x < p_hres p -> y < p_vres p ->
     let d := M (picture_word shift aw R (y * p_hres p + x)) in
     px_r (o n) = d mod 2 ^ 8 /\ px_g (o n) = d / 2 ^ 8 mod 2 ^ 8 /\ px_b (o n) = d / 2 ^ 16 mod 2 ^ 8)) in SH.
  pose proof (lk_ok p lk) as ok. set (H := p_hscan p + 1) in *. set (V := p_vscan p + 1) in *.
  assert (H0 : 0 < H) by (unfold H; destruct ok; lia). assert (V0 : 0 < V) by (unfold V; destruct ok; lia).
  assert (HP : 0 < p_hres p /\ 0 < p_vres p) by (destruct lk; lia).
  assert (FL : frame_len R = H * V) by reflexivity.
  set (F0 := (n2 + Z.to_nat (frame_len R - ph))%nat).
  assert (MF : forall k, ph + moved n2 (F0 + k)%nat = H * V + Z.of_nat k).
  { intros k. assert (U : underflows o dv (F0 + k) = underflows o dv n2).
    { replace (F0 + k)%nat with (n2 + (F0 + k - n2))%nat by (unfold F0; lia). unfold underflows. rewrite occ_app, Nat.add_0_l. rewrite (occ_zero _ n2); [lia|].
      intros t T. destruct (px_de (o t)) eqn:DE; [|reflexivity]. rewrite (FED t ltac:(lia) DE). reflexivity. }
    unfold moved. rewrite U. unfold F0. lia. }
  assert (KE : forall k, 0 <= k -> H * V + k = ((k / H / V + 1) * V + k / H mod V) * H + k mod H).
  { intros k K. pose proof (Z.div_mod k H ltac:(lia)). pose proof (Z.div_mod (k / H) V ltac:(lia)).
    replace ((k / H / V + 1) * V + k / H mod V) with (k / H + V) by lia. lia. }
  assert (AT : forall k, px_de (o (F0 + k)%nat) = spec_de p (Z.of_nat k) /\ px_hs (o (F0 + k)%nat) = spec_hsync p (Z.of_nat k) /\ px_vs (o (F0 + k)%nat) = spec_vsync p (Z.of_nat k) /\
    (px_de (o (F0 + k)%nat) = true -> let d := M (picture_word shift aw R (scan_y p (Z.of_nat k) * p_hres p + scan_x p (Z.of_nat k))) in
     px_r (o (F0 + k)%nat) = slice 0 8 d /\ px_g (o (F0 + k)%nat) = slice 8 8 d /\ px_b (o (F0 + k)%nat) = slice 16 8 d)).
  { intros k. set (kz := Z.of_nat k). assert (K0 : 0 <= kz) by (unfold kz; lia).
    assert (D0 : 0 <= kz / H / V) by (apply Z.div_pos; [apply Z.div_pos; lia|lia]).
    destruct (SH (F0 + k)%nat ltac:(unfold F0; lia) (kz / H / V + 1) (kz / H mod V) (kz mod H)) as (S1 & S2 & S3 & S4).
    - lia.
    - apply Z.mod_pos_bound. exact V0.
    - apply Z.mod_pos_bound. exact H0.
    - rewrite MF. apply KE. exact K0.
    - unfold spec_de, spec_hsync, spec_vsync, scan_x, scan_y. fold H V. split; [exact S1|]. split; [exact S2|]. split; [exact S3|].
      intros DE. pose proof (FED (F0 + k)%nat ltac:(unfold F0; lia) DE) as DV. rewrite S1 in DE. apply andb_true_iff in DE as [X Y]. apply Z.ltb_lt in X, Y.
      specialize (S4 DV X Y). cbv zeta in S4 |- *. unfold slice. change (2 ^ 0) with 1. rewrite Z.div_1_r. exact S4. }
  assert (RG : forall n, 0 <= px_r (o n) < 256 /\ 0 <= px_g (o n) < 256 /\ 0 <= px_b (o n) < 256).
  { intros n. unfold o, ot_px, vt_px. cbv zeta. cbn [tx_px px_r px_g px_b]. repeat split; apply slice8. }
  set (pic := fun q : nat => M (picture_word shift aw R (Z.of_nat q mod (p_hres p * p_vres p)))).
  destruct (link_settled p lk pic o F0 RG) with (L := L) (Lmin := Lmin) (N := N) (raw := raw) (s0 := s0) as (D & D' & B & ED & P); try assumption.
  - intros k. destruct (AT k) as (-> & -> & -> & _). unfold tx_de, tx_hs, tx_vs. replace (Z.of_nat (S k) - 1) with (Z.of_nat k) by lia. auto.
  - intros k DE. cbv zeta. destruct (AT k) as (S1 & _ & _ & S4). specialize (S4 DE). rewrite DE in S1. cbv zeta in S4.
    symmetry in S1. unfold spec_de in S1. apply andb_true_iff in S1 as [X Y]. 
    pose proof (pixels_before_closed p ok k) as PB. cbv zeta in PB. rewrite Y in PB. apply Z.ltb_lt in X, Y. rewrite Z.min_l in PB by lia.
    assert (XY : 0 <= scan_x p (Z.of_nat k) /\ 0 <= scan_y p (Z.of_nat k)) by (unfold scan_x, scan_y; split; apply Z.mod_pos_bound; assumption).
    unfold pic. rewrite PB, Z.add_comm, Z.mod_add, Z.mod_small by nia. exact S4.
  - unfold F0. lia.
  - exists F0, D, D'. split; [unfold F0; lia|]. split; [unfold F0; lia|]. split; [exact B|]. split; [exact ED|]. intros pic'. exact P.
Qed.

(** Software changes the mode (resolution, timing, base and length) while both ends run; every set that reaches the
    pixel clock is whole (see C127).  A receiver that has been running all the time, and was never reset or retrained,
    reports the new resolution, and every slot loaded after the fourth vertical sync of the new mode receives the new
    picture exactly. *)
Theorem C129_new_mode :
  forall shift txaw depth txmem txra (ti : nat -> ot_in), 0 <= txaw -> length txmem = 4%nat ->
  forall u t0, enabled_from shift txaw depth txmem txra ti u t0 ->
  let st := ot_run shift txaw depth txmem txra ti in
  forall Hm Fx E, clocks ti Hm E -> (forall x, ot_ready (ti x) = true) ->
  (forall t v, ini_out (ot_ini (st t)) = Some v -> whole_set shift txaw depth v /\ Hm <= frame_len v <= Fx) ->
  forall Mtx junk,
  let o n := ot_px shift txaw Mtx (junk n) (st (E n)) (ti (E n)) in
  let dv n := ot_dv shift txaw (st (E n)) (ti (E n)) in
  let n0 := occurrences (fun x => ot_cd (ti x)) 0 t0 in
  let moved a n := Z.of_nat n - Z.of_nat a - (Z.of_nat (underflows o dv n) - Z.of_nat (underflows o dv a)) in
  forall wr R, (forall x, (wr <= x)%nat -> ini_regs (ot_ini (st x)) = R) ->
  forall n1 n2, (n0 <= n1 <= n2)%nat -> (wr <= E n1)%nat -> 5 * Fx < moved n1 n2 ->
  (forall n, (n2 <= n)%nat -> px_de (o n) = true -> dv n = true) ->
  let p := timing_of R in
  24 <= p_hres p -> p_hres p + 30 <= p_hscan p + 1 -> 1 <= p_vres p <= p_vscan p ->
  p_hres p < p_hs_start p -> p_vres p <= p_vs_start p < p_vs_end p -> params_ok p ->
  forall N, (N <= n2)%nat -> forall L Lmin raw s0, link_at N o L Lmin raw s0 ->
  forall k m, (1 <= k)%nat -> let F := (2 ^ k)%nat in p_hres p * p_vres p = Z.of_nat (F * m) ->
  exists F0 D, (n2 < F0)%nat /\ Z.of_nat F0 <= Z.of_nat n2 + frame_len R /\
  (forall k, (k < 3)%nat -> (L k / 10 + 7 < D <= L k / 10 + 15)%nat) /\
  (forall n, Z.of_nat F0 + Z.of_nat D + 5 * frame_len R <= Z.of_nat (N + n) ->
   let r := rx_rd (rx_run s0 raw n) in rd_h r = p_hres p mod 2 ^ 11 /\ rd_v r = p_vres p mod 2 ^ 11) /\
  forall n aw align mem ra ns (i : nat -> cap_in), let dw := 32 * Z.of_nat F in
  forall K Ed B T0 e, 0 <= e -> serving n F 32 aw dw align mem ra ns i (pk_stream s0 raw) K Ed B m T0 ->
  let vsync_of v := 1 + (v * (p_vscan p + 1) + p_vs_start p) * (p_hscan p + 1) in
  Z.of_nat (N + occurrences (fun v => cap_pix (i v)) 0 T0) = vsync_of (3 + e) + Z.of_nat (F0 + D) ->
  forall w c addr, programs n F 32 aw dw align mem ra ns i K Ed B T0 w c addr ->
  let a := (addr / 2 ^ align) mod 2 ^ aw in
  exists x z, (w < x < z)%nat /\ (forall t, (w < t < z)%nat -> Z.odd (slot_status n F 32 aw dw align mem ra ns i t c) = true) /\
  slot_status n F 32 aw dw align mem ra ns i z c = 2 /\
  forall M, let M' := after M (collect (c_write n F 32 aw dw align mem ra (dma_init ns) i) x (z - x)) in
  (forall q, (q < F * m)%nat ->
   slice (32 * Z.of_nat (F - 1 - q mod F)) 32 (M' ((a + Z.of_nat (q / F)) mod 2 ^ aw)) = stored (Mtx (picture_word shift txaw R (Z.of_nat q)))) /\
  (forall v, (forall j, (j < m)%nat -> v <> (a + Z.of_nat j) mod 2 ^ aw) -> M' v = M v).
Proof.
  intros shift txaw depth txmem txra ti Haw HM u t0 Hon st Hm Fx E HE Hready Hsets Mtx junk o dv n0 moved wr R HR n1 n2 HN W MV FED p H1 H2 H3 H4 H5 ok
    N HNn L Lmin raw s0 Hlink k m Hk F HF.
  assert (lk : link_ok p) by (constructor; assumption).
  destruct (mode_link shift txaw depth txmem txra ti Haw HM u t0 Hon Hm Fx E HE Hready Hsets Mtx junk wr R HR n1 n2 HN W MV FED lk N HNn L Lmin raw s0 Hlink)
    as (F0 & D & D' & A1 & A2 & B & ED & P). cbv zeta in P. fold p in P.
  set (pic := fun q : nat => Mtx (picture_word shift txaw R (Z.of_nat q mod (p_hres p * p_vres p)))) in *.
  change (forall n, (clk p 2 0 (p_hres p) <= n)%nat ->
    let q := rx_sp (rx_run s0 raw (n + D')) in
    sp_valid q = true /\ sp_de q = tx_de p n /\ sp_hsync q = tx_hs p n /\ sp_vsync q = tx_vs p n /\
    (tx_de p n = true ->
     let d := pic (pixels_before p (n - 1)) in sp_r q = slice 0 8 d /\ sp_g q = slice 8 8 d /\ sp_b q = slice 16 8 d)) in P.
  exists F0, D. split; [exact A1|]. split; [exact A2|]. split; [exact B|].
  split.
  { intros n Hn. apply (frame_resolution p lk pic s0 raw D' 2 ltac:(lia) P). rewrite ED, Nat2Z.inj_add in *. change (frame_len R) with ((p_hscan p + 1) * (p_vscan p + 1)) in Hn. lia. }
  intros n aw align mem ra ns i dw K Ed Bu T0 e He SV vsync_of E0 ww c addr PG a.
  assert (E1 : Z.of_nat (occurrences (fun v => cap_pix (i v)) 0 T0) = vsync_of (2 + e + 1) + Z.of_nat D' + 1).
  { rewrite ED. replace (2 + e + 1) with (3 + e) by ring. lia. }
  assert (WD : forall f t1 t2, (2 + e) + 2 <= Z.of_nat f ->
    let vsync_of v := 1 + (v * (p_vscan p + 1) + p_vs_start p) * (p_hscan p + 1) in
    Z.of_nat t1 = vsync_of (Z.of_nat f - 1) + Z.of_nat D' -> Z.of_nat t2 = vsync_of (Z.of_nat f) + Z.of_nat D' ->
    collect (word_out F (pk_stream s0 raw)) (t1 + 1) (t2 - t1) =
    map (fun j => (Nat.eqb j 0, rev (map (fun q => stored (pic (f * (F * m) + q)%nat)) (seq (F * j) F)))) (seq 0 m)).
  { intros f t1 t2 Hf. apply (frame_words p lk pic s0 raw D' 2 ltac:(lia) P k m Hk HF). lia. }
  destruct (frame_served p lk (pk_stream s0 raw) (fun q => stored (pic q)) 32 D' (2 + e) ltac:(lia) (fun q => stored_range (pic q)) ltac:(lia)
    k m HF WD n aw align mem ra ns i K Ed Bu T0 SV E1 ww c addr PG) as (x & z & XZ & LD & SS & MM).
  exists x, z. split; [exact XZ|]. split; [exact LD|]. split; [exact SS|]. intros M M'.
  destruct (MM M) as (f & C1 & C2 & C3). split; [|exact C3].
  assert (PIC : forall q, (q < F * m)%nat -> pic (f * (F * m) + q)%nat = Mtx (picture_word shift txaw R (Z.of_nat q))).
  { intros q Q. unfold pic. rewrite HF, <- Nat2Z.inj_mod. rewrite Nat.add_comm, Nat.mod_add, Nat.mod_small by lia. reflexivity. }
  intros q Q. etransitivity; [apply (C2 q Q)|]. fold F in Q |- *.
  rewrite (PIC q Q). reflexivity.
Qed.
Print Assumptions C129_new_mode.

(** The same in the receiver's default mode, YCbCr 4:2:2. *)
Theorem C129_new_mode_422 :
  forall shift txaw depth txmem txra (ti : nat -> ot_in), 0 <= txaw -> length txmem = 4%nat ->
  forall u t0, enabled_from shift txaw depth txmem txra ti u t0 ->
  let st := ot_run shift txaw depth txmem txra ti in
  forall Hm Fx E, clocks ti Hm E -> (forall x, ot_ready (ti x) = true) ->
  (forall t v, ini_out (ot_ini (st t)) = Some v -> whole_set shift txaw depth v /\ Hm <= frame_len v <= Fx) ->
  forall Mtx junk,
  let o n := ot_px shift txaw Mtx (junk n) (st (E n)) (ti (E n)) in
  let dv n := ot_dv shift txaw (st (E n)) (ti (E n)) in
  let n0 := occurrences (fun x => ot_cd (ti x)) 0 t0 in
  let moved a n := Z.of_nat n - Z.of_nat a - (Z.of_nat (underflows o dv n) - Z.of_nat (underflows o dv a)) in
  forall wr R, (forall x, (wr <= x)%nat -> ini_regs (ot_ini (st x)) = R) ->
  forall n1 n2, (n0 <= n1 <= n2)%nat -> (wr <= E n1)%nat -> 5 * Fx < moved n1 n2 ->
  (forall n, (n2 <= n)%nat -> px_de (o n) = true -> dv n = true) ->
  let p := timing_of R in
  24 <= p_hres p -> p_hres p + 30 <= p_hscan p + 1 -> 1 <= p_vres p <= p_vscan p ->
  p_hres p < p_hs_start p -> p_vres p <= p_vs_start p < p_vs_end p -> Z.even (p_hres p) = true -> params_ok p ->
  forall N, (N <= n2)%nat -> forall L Lmin raw s0, link_at N o L Lmin raw s0 ->
  forall k m, (1 <= k)%nat -> let F := (2 ^ k)%nat in p_hres p * p_vres p = Z.of_nat (F * m) ->
  exists F0 D, (n2 < F0)%nat /\ Z.of_nat F0 <= Z.of_nat n2 + frame_len R /\
  (forall k, (k < 3)%nat -> (L k / 10 + 7 < D <= L k / 10 + 15)%nat) /\
  forall n aw align mem ra ns (i : nat -> cap_in), let dw := 16 * Z.of_nat F in
  forall K Ed B T0 e, 0 <= e -> serving n F 16 aw dw align mem ra ns i (ycc_pk_stream F s0 raw) K Ed B m T0 ->
  let vsync_of v := 1 + (v * (p_vscan p + 1) + p_vs_start p) * (p_hscan p + 1) in
  Z.of_nat (N + occurrences (fun v => cap_pix (i v)) 0 T0) = vsync_of (3 + e) + Z.of_nat (F0 + D) ->
  forall w c addr, programs n F 16 aw dw align mem ra ns i K Ed B T0 w c addr ->
  let a := (addr / 2 ^ align) mod 2 ^ aw in
  exists x z, (w < x < z)%nat /\ (forall t, (w < t < z)%nat -> Z.odd (slot_status n F 16 aw dw align mem ra ns i t c) = true) /\
  slot_status n F 16 aw dw align mem ra ns i z c = 2 /\
  forall M, let M' := after M (collect (c_write n F 16 aw dw align mem ra (dma_init ns) i) x (z - x)) in
  (forall q, (q < F * m)%nat ->
   slice (16 * Z.of_nat (F - 1 - q mod F)) 16 (M' ((a + Z.of_nat (q / F)) mod 2 ^ aw)) = stored_422 (fun j => Mtx (picture_word shift txaw R (Z.of_nat j))) q) /\
  (forall v, (forall j, (j < m)%nat -> v <> (a + Z.of_nat j) mod 2 ^ aw) -> M' v = M v).
Proof.
  intros shift txaw depth txmem txra ti Haw HM u t0 Hon st Hm Fx E HE Hready Hsets Mtx junk o dv n0 moved wr R HR n1 n2 HN W MV FED p H1 H2 H3 H4 H5 EV ok
    N HNn L Lmin raw s0 Hlink k m Hk F HF.
  assert (lk : link_ok p) by (constructor; assumption).
  destruct (mode_link shift txaw depth txmem txra ti Haw HM u t0 Hon Hm Fx E HE Hready Hsets Mtx junk wr R HR n1 n2 HN W MV FED lk N HNn L Lmin raw s0 Hlink)
    as (F0 & D & D' & A1 & A2 & B & ED & P). cbv zeta in P. fold p in P.
  set (pic := fun q : nat => Mtx (picture_word shift txaw R (Z.of_nat q mod (p_hres p * p_vres p)))) in *.
  change (forall n, (clk p 2 0 (p_hres p) <= n)%nat ->
    let q := rx_sp (rx_run s0 raw (n + D')) in
    sp_valid q = true /\ sp_de q = tx_de p n /\ sp_hsync q = tx_hs p n /\ sp_vsync q = tx_vs p n /\
    (tx_de p n = true ->
     let d := pic (pixels_before p (n - 1)) in sp_r q = slice 0 8 d /\ sp_g q = slice 8 8 d /\ sp_b q = slice 16 8 d)) in P.
  exists F0, D. split; [exact A1|]. split; [exact A2|]. split; [exact B|].
  intros n aw align mem ra ns i dw K Ed Bu T0 e He SV vsync_of E0 ww c addr PG a.
  assert (E1 : Z.of_nat (occurrences (fun v => cap_pix (i v)) 0 T0) = vsync_of (2 + e + 1) + Z.of_nat D' + 1).
  { rewrite ED. replace (2 + e + 1) with (3 + e) by ring. lia. }
  assert (WD : forall f t1 t2, (2 + e) + 2 <= Z.of_nat f ->
    let vsync_of v := 1 + (v * (p_vscan p + 1) + p_vs_start p) * (p_hscan p + 1) in
    Z.of_nat t1 = vsync_of (Z.of_nat f - 1) + Z.of_nat D' -> Z.of_nat t2 = vsync_of (Z.of_nat f) + Z.of_nat D' ->
    collect (word_out F (ycc_pk_stream F s0 raw)) (t1 + 1) (t2 - t1) =
    map (fun j => (Nat.eqb j 0, rev (map (fun q => stored_422 pic (f * (F * m) + q)%nat) (seq (F * j) F)))) (seq 0 m)).
  { intros f t1 t2 Hf. apply (packed_words p lk (ycc_pk_stream F s0 raw) D' 11 ltac:(lia) (stored_422 pic) 2 ltac:(lia)
      (ycc_vs p pic s0 raw D' 2 P F) (ycc_px p lk EV pic s0 raw D' 2 ltac:(lia) P F) k m Hk HF). lia. }
  destruct (frame_served p lk (ycc_pk_stream F s0 raw) (stored_422 pic) 16 D' (2 + e) ltac:(lia) (stored_422_range pic) ltac:(lia)
    k m HF WD n aw align mem ra ns i K Ed Bu T0 SV E1 ww c addr PG) as (x & z & XZ & LD & SS & MM).
  exists x, z. split; [exact XZ|]. split; [exact LD|]. split; [exact SS|]. intros M M'.
  destruct (MM M) as (f & C1 & C2 & C3). split; [|exact C3].
  assert (PIC : forall q, (q < F * m)%nat -> pic (f * (F * m) + q)%nat = Mtx (picture_word shift txaw R (Z.of_nat q))).
  { intros q Q. unfold pic. rewrite HF, <- Nat2Z.inj_mod. rewrite Nat.add_comm, Nat.mod_add, Nat.mod_small by lia. reflexivity. }
  intros q Q. etransitivity; [apply (C2 q Q)|]. fold F in Q |- *.
  assert (EF : Nat.even (F * m) = true).
  { unfold F. replace k with (S (k - 1)) by lia. cbn [Nat.pow]. rewrite !Nat.even_mul. reflexivity. }
  apply (stored_422_at pic (fun j => Mtx (picture_word shift txaw R (Z.of_nat j))) (f * (F * m)) (F * m) q); [rewrite Nat.even_mul, EF; apply orb_true_r|exact EF|exact Q|].
  intros j J. rewrite (PIC j J). reflexivity.
Qed.
Print Assumptions C129_new_mode_422.

(** * The hypotheses can be met *)
(** Software changes from 10 by 2 pixels at word 100 to 28 by 2 pixels at word 200, at the instants 290 to 299. *)
Definition ex_md_4 : list Z := [28; 30; 34; 57; 2; 2; 3; 3; 800; 224].
Lemma ex_ml_per : ex_md ex_md_4 290 (1500 + 1856) = ex_md ex_md_4 290 1500.
Proof. vm_compute. reflexivity. Qed.
Lemma ex_ml_sets : forall t v, ini_out (ot_ini (ex_md ex_md_4 290 t)) = Some v -> v = ex_md_1 \/ v = ex_md_4.
Proof. apply (ex_md_two ex_md_4 290 1500 1856 ltac:(lia) ltac:(lia) ltac:(lia) ex_ml_per). vm_compute. reflexivity. Qed.
Lemma ex_ml_flow : forall t, (400 <= t)%nat -> ex_md_flow (ex_md ex_md_4 290 t) t = true.
Proof.
  assert (B : forall d, (d < 1100)%nat -> ex_md_flow (ex_md ex_md_4 290 (400 + d)) (400 + d)%nat = true).
  { exact (scan_sound _ _ (ot_step 2 8 4) (ex_md_in ex_md_4 290) ex_md_flow (ot_init (repeat [] 4) 0) 1100 400 ltac:(vm_compute; reflexivity)). }
  intros t T. destruct (Nat.lt_ge_cases t 1500) as [LT|GE]; [replace t with (400 + (t - 400))%nat by lia; apply B; lia|].
  apply (ex_md_ever ex_md_4 290 ex_md_flow 1500 1856 ltac:(lia) ltac:(lia) ltac:(lia) ex_ml_per); [reflexivity|vm_compute; reflexivity|exact GE].
Qed.
Example C129_case : forall Mtx junk,
  let o n := ot_px 2 8 Mtx (junk n) (ex_md ex_md_4 290 n) (ex_md_in ex_md_4 290 n) in
  let raw n k := delayed (tx_word o k) (ex_L k) n in
  (exists n3, forall n, (n3 <= n)%nat -> rd_h (rx_rd (rx_run rx_init raw n)) = 28 /\ rd_v (rx_rd (rx_run rx_init raw n)) = 2) /\
  exists N0, let T0 := (4 * N0 - 3)%nat in let i := ex_str (pk_stream rx_init raw) 14 (T0 + 20) in
  exists x z, slot_status 4 4 32 15 128 3 (repeat (false, []) 16) 0 2 i z 0 = 2 /\
  forall M, let M' := after M (collect (c_write 4 4 32 15 128 3 (repeat (false, []) 16) 0 (dma_init 2) i) x (z - x)) in
  forall q, (q < 56)%nat -> slice (32 * Z.of_nat (3 - q mod 4)) 32 (M' (8 + Z.of_nat (q / 4))) = stored (Mtx (200 + Z.of_nat q)).
Proof.
  intros Mtx junk o raw.
  assert (RE : forall x, ot_run 2 8 4 (repeat [] 4) 0 (ex_md_in ex_md_4 290) x = ex_md ex_md_4 290 x) by (intros x; unfold ex_md; reflexivity).
  destruct (ex_md_on ex_md_4 290) as (ON & RB & RA); [lia|vm_compute; reflexivity|vm_compute; reflexivity|vm_compute; reflexivity|vm_compute; reflexivity|vm_compute; discriminate|vm_compute; reflexivity|].
  assert (CL : clocks (ex_md_in ex_md_4 290) 21 (fun n => n)) by apply ex_md_clocks.
  assert (W4 : whole_set 2 8 4 ex_md_4) by (repeat split; cbn; lia).
  assert (SETS : forall t v, ini_out (ot_ini (ot_run 2 8 4 (repeat [] 4) 0 (ex_md_in ex_md_4 290) t)) = Some v -> whole_set 2 8 4 v /\ 21 <= frame_len v <= 232).
  { intros t v O. rewrite RE in O. destruct (ex_ml_sets t v O) as [-> | ->].
    - split; [exact (proj1 ex_md_whole)|]. change (frame_len ex_md_1) with 64. lia.
    - split; [exact W4|]. change (frame_len ex_md_4) with 232. lia. }
  set (dv := fun n => ot_dv 2 8 (ex_md ex_md_4 290 n) (ex_md_in ex_md_4 290 n)).
  assert (FED : forall n, (400 <= n)%nat -> px_de (o n) = true -> dv n = true).
  { intros n Hn DE. pose proof (ex_ml_flow n Hn) as Q. apply negb_true_iff in Q. unfold ex_md_flow in Q.
    change (px_de (ot_px 2 8 (fun a => a) 0 (ex_md ex_md_4 290 n) (ex_md_in ex_md_2 290 1000))) with (px_de (o n)) in Q. rewrite DE in Q. apply negb_false_iff in Q. exact Q. }
  assert (LK : link_at 0 o ex_L 0 raw rx_init).
  { apply link_at_0. split; [intros [|[|[|k]]] Hk; cbn; lia|]. split; [intros k Hk; apply delayed_ok|]. intros k Hk. apply ex_hyp. exact Hk. }
  assert (UF : underflows o dv 2000 = underflows o dv 400).
  { unfold underflows. change 2000%nat with (400 + 1600)%nat. rewrite occ_app. cbn [Nat.add]. rewrite (occ_zero _ 400 1600); [lia|].
    intros t T. destruct (px_de (o t)) eqn:DE; [|reflexivity]. rewrite (FED t ltac:(lia) DE). reflexivity. }
  assert (N14 : occurrences (fun x => ot_cd (ex_md_in ex_md_4 290 x)) 0 14 = 14%nat) by reflexivity.
  assert (CAP := C129_new_mode 2 8 4 (repeat [] 4) 0 (ex_md_in ex_md_4 290) ltac:(lia) eq_refl 11 14 ON 21 232 (fun n => n) CL (fun _ => eq_refl) SETS Mtx junk
    300%nat ex_md_4 (fun x X => eq_trans (f_equal (fun s => ini_regs (ot_ini s)) (RE x)) (RA x X)) 400%nat 2000%nat ltac:(rewrite N14; lia) ltac:(cbv beta; lia)).
  cbv zeta in CAP. unfold ot_run in CAP. change (at_ (ot_step 2 8 4) (ot_init (repeat [] 4) 0) (ex_md_in ex_md_4 290)) with (ex_md ex_md_4 290) in CAP.
  change (underflows _ _ 2000) with (underflows o dv 2000) in CAP. change (underflows _ _ 400) with (underflows o dv 400) in CAP. rewrite UF in CAP.
  specialize (CAP ltac:(lia) ltac:(intros n Hn; apply (FED n); lia) ltac:(cbn; lia) ltac:(cbn; lia) ltac:(cbn; lia) ltac:(cbn; lia) ltac:(cbn; lia) (ws_ok _ _ _ _ W4)
    0%nat ltac:(lia) ex_L 0%nat raw rx_init LK 2%nat 14%nat ltac:(lia) eq_refl).
  destruct CAP as (F0 & D & _ & _ & _ & RES & CAP). split.
  { exists (F0 + D + 1160)%nat. intros n Hn. destruct (RES n) as [R1 R2]; [|split; [exact R1|exact R2]]. change (frame_len ex_md_4) with 232. lia. }
  set (P4 := timing_of ex_md_4) in *.
  exists (Z.to_nat (1 + ((3 + 0) * (p_vscan P4 + 1) + p_vs_start P4) * (p_hscan P4 + 1)) + (F0 + D))%nat.
  set (N0 := (_ + _)%nat). intros T0 i.
  destruct (ex_serving (pk_stream rx_init raw) 2 32 14 N0 ltac:(lia) ltac:(unfold N0; cbn; lia)) as (SV & PG & CN).
  specialize (CAP 4 15 3 (repeat (false, []) 16) 0 2%nat i 1%nat 0%nat 6%nat T0 0 ltac:(lia) SV).
  assert (CN' : occurrences (fun v => cap_pix (i v)) 0 T0 = N0) by exact CN. rewrite CN' in CAP.
  assert (NE : Z.of_nat (0 + N0) = 1 + ((3 + 0) * (p_vscan P4 + 1) + p_vs_start P4) * (p_hscan P4 + 1) + Z.of_nat (F0 + D)).
  { unfold N0. rewrite !Nat2Z.inj_add, Z2Nat.id by (cbn; lia). lia. }
  destruct (CAP NE (T0 + 20)%nat 0%nat 64 PG) as (x & z & XZ & _ & SS & MM).
  exists x, z. split; [exact SS|]. intros M M' q Q.
  destruct (MM M) as [G _]. specialize (G q ltac:(cbn; lia)).
  replace ((64 / 2 ^ 3) mod 2 ^ 15 + Z.of_nat (q / 2 ^ 2)) with (8 + Z.of_nat (q / 4)) in G by reflexivity.
  assert (Q4 : (q / 4 < 14)%nat) by (apply Nat.div_lt_upper_bound; lia).
  rewrite Z.mod_small in G by (change (2 ^ 15) with 32768; lia).
  unfold picture_word in G. change (nth 8 ex_md_4 0 / 2 ^ 2) with 200 in G. rewrite Z.mod_small in G by (change (2 ^ 8) with 256; lia).
  exact G.
Qed.
