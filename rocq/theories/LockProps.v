(** C116: from the lock of the receiver's clock generator to a filled slot. *)
From Coq Require Import ZArith List Bool Lia Arith.
From Verif Require Import Hdl Trace CdcProofs AnalysisModel TimingModel TimingSpec TimingProofs VideoOutModel VideoOutProofs
  HdmiModel HdmiProofs CharSyncModel CharSyncSpec CharSyncProofs ChanSyncModel ChanSyncProofs LinkModel LinkProofs LinkProps
  InDmaModel FifoModel FifoProofs FifoProps CaptureModel CaptureProofs CaptureProps
  FrameProofs FrameProps InDmaProofs InDmaProps PhyModel PhyProps OutTopModel OutTopProofs OutTopProps CaptureLiveProps FrameLiveProofs
  SerialModel SerialProps GearModel GearProps SerialLinkProps ClockModel ClockProps JoinProps.
Import ListNotations.
Open Scope nat_scope.

(** A receiver with its three channels, whose clock generator locks: Spartan 6 (pix
    rises at the odd or at the even edges of pix2x) or Series 7.  [ri] are the pad
    polarities, [s0] the states long before the lock, [x] what happens. *)
Inductive receiver :=
| R6 (odd : bool) (ri : nat -> bool) (s0 : nat -> c6_st) (x : nat -> nat -> c6_in)
| R7 (m : nat) (ri : nat -> bool) (s0 : nat -> cr_st) (x : nat -> nat -> cr_in).
(** Instants per pixel clock, and the edges of the pixel clock. *)
Definition rx_period (r : receiver) : nat := match r with R6 _ _ _ _ => 2 | R7 m _ _ _ => 5 * m end.
Definition rx_edge (r : receiver) (t : nat) : bool := match r with R6 odd _ _ _ => Bool.eqb (Nat.odd t) odd | R7 m _ _ _ => pll_edge m 5 t end.
(** The word of channel [k] after the pixel clock edge at instant [t]. *)
Definition rx_word (r : receiver) (t k : nat) : Z :=
  match r with
  | R6 _ ri s0 x => dg_d (c6_d (c6_run (ri k) (s0 k) (x k) (S t)))
  | R7 _ ri s0 x => gb_o (cr_g (cr_run (ri k) (s0 k) (x k) (S t)))
  end.

(** At the lock, in instant [L], the transmitter has sent [P] bits per pair; pair [k] delays by [d k] bits.
    [bits_at_lock] is what the deserialiser of the channel sees from then on. *)
Definition bits_at_lock (f : family) (w : nat -> Z) (ti ri : bool) (P d : nat) (line : nat -> bool) : Prop :=
  forall t, d <= t + P -> line t = xorb (xorb ti ri) (sent f ti w (t + P - d)).
Definition locks (r : receiver) (f : family) (o : nat -> px) (P : nat) (d : nat -> nat) (L : nat) : Prop :=
  1 <= L /\
  match r with
  | R6 odd ri s0 x => forall k, k < 3 -> exists ti line, bits_at_lock f (tx_word o k) ti (ri k) P (d k) line /\
      c6_lock (x k (L - 1)) = false /\
      forall t, L <= t -> c6_lock (x k t) = true /\ c6_pix (x k t) = Bool.eqb (Nat.odd t) odd /\ c6_g (x k t) = groups_of line 0 (t - L)
  | R7 m ri s0 x => 1 <= m /\ forall k, k < 3 -> exists ti line, bits_at_lock f (tx_word o k) ti (ri k) P (d k) line /\
      cri_lock (x k (L - 1)) = false /\ cri_rw (x k L) = cri_rw (x 0 L) /\ cri_rr (x k L) = cri_rr (x 0 L) /\
      (forall t, L <= t -> cri_lock (x k t) = true /\ gbi_w (cri_g (x k t)) = pll_edge m 4 t /\ gbi_r (cri_g (x k t)) = pll_edge m 5 t) /\
      (forall t, L <= t -> pll_edge m 4 t = true -> gbi_i (cri_g (x k t)) = group8 line (occurrences (pll_edge m 4) L (t - L)))
  end.

(** ** Spartan 6 *)
Lemma even_odd_count : forall odd L n, occurrences (fun t => Bool.eqb (Nat.odd t) odd) L (2 * n) = n.
Proof.
  intros odd L. induction n as [|n IH]; [reflexivity|]. replace (2 * S n) with (S (S (2 * n))) by lia. cbn [occurrences]. rewrite IH.
  rewrite Nat.add_succ_r, Nat.odd_succ, <- Nat.negb_odd. destruct (Nat.odd (L + 2 * n)), odd; cbn; lia.
Qed.

Lemma s6_after_lock : forall odd inv line s0 x L, 1 <= L -> c6_lock (x (L - 1)) = false ->
  (forall t, L <= t -> c6_lock (x t) = true /\ c6_pix (x t) = Bool.eqb (Nat.odd t) odd /\ c6_g (x t) = groups_of line 0 (t - L)) ->
  forall b, L + 6 <= b -> Bool.eqb (Nat.odd b) odd = true ->
  let raw n := dg_d (c6_d (c6_run inv s0 x (S (b + 2 * n)))) in
  (forall n, (0 <= raw n < 1024)%Z) /\ forall t, serial raw t = xorb inv (line (t + 5 * (b - L) - 10)).
Proof.
  intros odd inv line s0 x L L1 OFF ON b B PB raw.
  set (st := fun t => c6_run inv s0 x t). assert (ST : forall t, st (S t) = c6_step inv (st t) (x t)) by reflexivity.
  pose proof (ars_inv (fun t => c6_lock (x t)) (fun _ => true) (fun t => c6_rw (x t)) (fun t => c6_w (st t)) L
    ltac:(intros t; cbv beta; rewrite ST; reflexivity) L1 OFF ltac:(intros t T; apply (ON t T))) as AW.
  pose proof (ars_inv (fun t => c6_lock (x t)) (fun t => c6_pix (x t)) (fun t => c6_rr (x t)) (fun t => c6_r (st t)) L
    ltac:(intros t; cbv beta; rewrite ST; reflexivity) L1 OFF ltac:(intros t T; apply (ON t T))) as AR.
  assert (W1 : forall t, L + 3 <= t -> ars_1 (c6_w (st t)) = false).
  { intros t T. destruct (AW (t - L)) as (_ & _ & A). replace (L + (t - L)) with t in A by lia. rewrite A. apply Nat.ltb_ge. unfold eff.
    rewrite all_edges. destruct (_ && _); lia. }
  assert (R1 : forall t, L + 6 <= t -> ars_1 (c6_r (st t)) = false).
  { intros t T. destruct (AR (t - L)) as (_ & _ & A). replace (L + (t - L)) with t in A by lia. rewrite A. apply Nat.ltb_ge. unfold eff.
    assert (3 <= occurrences (fun t => c6_pix (x t)) L (t - L)); [|destruct (_ && _); lia].
    rewrite (occurrences_ext (fun t => c6_pix (x t)) (fun t => Bool.eqb (Nat.odd t) odd)) by (intros z Z; apply ON; lia).
    replace (t - L) with (2 * 3 + (t - L - 6)) by lia. rewrite occ_app, even_odd_count. lia. }
  assert (DS : forall t, L + 3 <= t -> dg_dsr (c6_d (st (S t))) = trunc 10 (slice 5 5 (dg_dsr (c6_d (st t))) + 32 * trunc 5 (groups_of line 0 (t - L)))).
  { intros t T. rewrite ST. unfold c6_step. cbn [c6_d dg_dsr]. rewrite W1 by lia. cbn [dg_step dg_dsr fst].
    destruct (ON t ltac:(lia)) as (_ & _ & ->). reflexivity. }
  assert (BT : forall t, L + 5 <= t -> (0 <= dg_dsr (c6_d (st t)) < 1024)%Z /\
    forall j, j < 10 -> Z.testbit (dg_dsr (c6_d (st t))) (Z.of_nat j) = line (5 * (t - L) + j - 10)).
  { intros t T. assert (SR : forall s, (0 <= slice 5 5 s < 32)%Z) by (intros s; unfold slice; apply Z.mod_pos_bound; lia).
    assert (E1 : t = S (t - 1)) by lia. assert (E2 : t - 1 = S (t - 2)) by lia. rewrite E1, DS by lia. split; [apply Z.mod_pos_bound; lia|].
    intros j J. rewrite testbit_cat5 by auto. destruct (Nat.ltb_spec j 5) as [H|H].
    - rewrite slice_bit by lia. replace (Z.of_nat j + 5)%Z with (Z.of_nat (5 + j)) by lia. rewrite E2, DS by lia. rewrite testbit_cat5 by (auto; lia).
      rewrite (proj2 (Nat.ltb_ge _ _)) by lia. rewrite group5_bit by lia. f_equal. lia.
    - rewrite group5_bit by lia. f_equal. lia. }
  assert (RW : forall n, raw n = if inv then trunc 10 (Z.lnot (dg_dsr (c6_d (st (b + 2 * n))))) else dg_dsr (c6_d (st (b + 2 * n)))).
  { intros n. unfold raw. change (c6_run inv s0 x (S (b + 2 * n))) with (st (S (b + 2 * n))). rewrite ST. unfold c6_step. cbn [c6_d dg_d].
    rewrite R1, andb_false_r by lia. cbn [dg_step dg_d snd]. destruct (ON (b + 2 * n) ltac:(lia)) as (_ & -> & _).
    rewrite Nat.odd_add_mul_2, PB. reflexivity. }
  split.
  - intros n. rewrite RW. destruct inv; [apply Z.mod_pos_bound; lia|]. apply BT. lia.
  - intros t. unfold serial. rewrite RW. pose proof (Nat.div_mod t 10 ltac:(lia)) as D. pose proof (Nat.mod_upper_bound t 10 ltac:(lia)) as U.
    set (n := t / 10) in *. set (j := t mod 10) in *.
    pose proof (proj2 (BT (b + 2 * n) ltac:(lia)) j U) as Q.
    replace (5 * (b + 2 * n - L) + j - 10) with (t + 5 * (b - L) - 10) in Q by lia. destruct inv.
    + unfold trunc. rewrite Z.mod_pow2_bits_low, Z.lnot_spec by lia. rewrite Q. reflexivity.
    + rewrite Q. destruct (line _); reflexivity.
Qed.

(** ** Either family *)
Lemma joined_link : forall o e (d : nat -> nat) c dmin raw s0, (forall k, k < 3 -> dmin <= d k <= dmin + 70) -> c <= dmin ->
  (forall k, k < 3 -> (forall n, (0 <= raw n k < 1024)%Z) /\
    forall t, c <= t -> d k <= t + e -> serial (fun n => raw n k) t = serial (tx_word o k) (t + e - d k)) ->
  rx_state_ok s0 ->
  let N := (e + 9) / 10 in
  link_at N o (fun k => d k + (10 * N - e)) (dmin + (10 * N - e)) raw s0.
Proof.
  intros o e d c dmin raw s0 HD HC H HS N.
  assert (NE : e <= 10 * N <= e + 9).
  { unfold N. pose proof (Nat.div_mod (e + 9) 10 ltac:(lia)). pose proof (Nat.mod_upper_bound (e + 9) 10 ltac:(lia)). lia. }
  split; [|split].
  - intros k K. specialize (HD k K). lia.
  - intros k K. destruct (H k K) as [A B]. split; [exact A|]. intros t T. specialize (HD k K). rewrite B by lia. f_equal. lia.
  - exact HS.
Qed.

(** Bits that the receiver's gear takes. *)
Definition gear_bits (r : receiver) : nat := match r with R6 _ _ _ _ => 0 | R7 _ _ _ _ => 40 end.

(** At the latest four pixel clocks after the lock, and whenever that is, the receiver's
    words are those that the transmitter is sending: [b] is the receiver's first pixel
    clock, [e] at most 32 bits have gone by since the lock. *)
Theorem C116_lock : forall r f o P d L, locks r f o P d L -> forall dmin, (forall k, k < 3 -> dmin <= d k <= dmin + 70) ->
  exists b e, rx_edge r b = true /\ L < b <= L + 4 * rx_period r /\ e <= 32 /\
  forall s0, rx_state_ok s0 -> let N := (P + e + 9) / 10 in let late := 10 * N - (P + e) in
  link_at N o (fun k => gear_bits r + d k + late) (gear_bits r + dmin + late) (fun n k => rx_word r (b + rx_period r * n) k) s0.
Proof.
  intros r f o P d L (L1 & H) dmin HD. destruct r as [odd ri s x|m ri s x].
  - set (b := if Bool.eqb (Nat.odd L) odd then L + 6 else L + 7).
    assert (PB : Bool.eqb (Nat.odd b) odd = true).
    { unfold b. destruct (Bool.eqb (Nat.odd L) odd) eqn:Q.
      - change 6 with (2 * 3). rewrite Nat.odd_add_mul_2. exact Q.
      - replace (L + 7) with (S (L + 2 * 3)) by lia. rewrite Nat.odd_succ, <- Nat.negb_odd, Nat.odd_add_mul_2. destruct (Nat.odd L), odd; (discriminate || reflexivity). }
    assert (RB : L + 6 <= b <= L + 7) by (unfold b; destruct (Bool.eqb _ _); lia).
    exists b, (5 * (b - L) - 10). split; [exact PB|]. cbn [rx_period gear_bits]. split; [lia|]. split; [lia|]. intros s0 HS.
    refine (joined_link o (P + (5 * (b - L) - 10)) d 0 dmin _ s0 HD ltac:(lia) _ HS).
    intros k K. destruct (H k K) as (ti & line & HL & OFF & ON).
    destruct (s6_after_lock odd (ri k) line (s k) (x k) L L1 OFF ON b ltac:(lia) PB) as [A B].
    split; [exact A|]. intros t _ T. transitivity (xorb (ri k) (line (t + 5 * (b - L) - 10))); [exact (B t)|].
    rewrite HL by lia. rewrite sent_serial. replace (t + 5 * (b - L) - 10 + P - d k) with (t + (P + (5 * (b - L) - 10)) - d k) by lia.
    destruct ti, (ri k), (serial (tx_word o k) _); reflexivity.
  - destruct H as [M H]. destruct (after_lock_common m M L L1 (cri_rw (x 0 L)) (cri_rr (x 0 L))) as (b & e & B1 & B2 & K & C).
    exists b, (8 * e). split; [exact B1|]. cbn [rx_period gear_bits]. split; [lia|]. split; [lia|]. intros s0 HS.
    refine (joined_link o (P + 8 * e) (fun k => 40 + d k) 40 (40 + dmin) _ s0 _ ltac:(lia) _ HS); [intros k Kk; specialize (HD k Kk); lia|].
    intros k Kk. destruct (H k Kk) as (ti & line & HL & OFF & RW & RR & ON & DS).
    destruct (Nat.le_gt_cases (d k) P) as [Q|Q].
    + destruct (C ti (ri k) (misaligned (tx_word o k) (P - d k)) 0 line) with (s0 := s k) (x := x k) as [A B]; try assumption.
      { intros t _. rewrite HL by lia. rewrite sent_serial, pin7_serial, serial_misaligned. do 3 f_equal. lia. }
      split; [exact A|]. intros t T T2. transitivity (serial (misaligned (tx_word o k) (P - d k)) (t + 8 * e - (40 + 0))); [apply B; lia|].
      rewrite serial_misaligned. f_equal. lia.
    + destruct (C ti (ri k) (tx_word o k) (d k - P) line) with (s0 := s k) (x := x k) as [A B]; try assumption.
      { intros t T. rewrite HL by lia. rewrite sent_serial, pin7_serial. do 3 f_equal. lia. }
      split; [exact A|]. intros t T T2. etransitivity; [apply B; lia|]. f_equal. lia.
Qed.
Print Assumptions C116_lock.

(** For every stream, families, polarities, delays and instants there is such a receiver. *)
Definition ex_join_line (f : family) (w : nat -> Z) (ti ri : bool) (P d t : nat) : bool :=
  if d <=? t + P then xorb (xorb ti ri) (sent f ti w (t + P - d)) else false.
Definition ex_R6 (odd : bool) (f : family) (o : nat -> px) (ti ri : nat -> bool) (P : nat) (d : nat -> nat) (L : nat) (s0 : nat -> c6_st) : receiver :=
  R6 odd ri s0 (fun k t => {| c6_lock := L <=? t; c6_pix := Bool.eqb (Nat.odd t) odd;
    c6_g := groups_of (ex_join_line f (tx_word o k) (ti k) (ri k) P (d k)) 0 (t - L); c6_rw := true; c6_rr := false |}).
Definition ex_R7 (m : nat) (f : family) (o : nat -> px) (ti ri : nat -> bool) (P : nat) (d : nat -> nat) (L : nat) (s0 : nat -> cr_st) : receiver :=
  R7 m ri s0 (fun k t => {| cri_lock := L <=? t; cri_rw := true; cri_rr := false;
    cri_g := {| gbi_w := pll_edge m 4 t; gbi_r := pll_edge m 5 t;
      gbi_i := group8 (ex_join_line f (tx_word o k) (ti k) (ri k) P (d k)) (occurrences (pll_edge m 4) L (t - L)) |} |}).
Example ex_locks : forall odd m f o ti ri P d L s6 s7, 1 <= m -> 1 <= L ->
  locks (ex_R6 odd f o ti ri P d L s6) f o P d L /\ locks (ex_R7 m f o ti ri P d L s7) f o P d L.
Proof.
  intros odd m f o ti ri P d L s6 s7 M L1.
  assert (B : forall k, bits_at_lock f (tx_word o k) (ti k) (ri k) P (d k) (ex_join_line f (tx_word o k) (ti k) (ri k) P (d k))).
  { intros k t T. unfold ex_join_line. rewrite (proj2 (Nat.leb_le _ _) T). reflexivity. }
  assert (OFF : (L <=? L - 1) = false) by (apply Nat.leb_gt; lia).
  assert (ON : forall t, L <= t -> (L <=? t) = true) by (intros t T; apply Nat.leb_le; exact T).
  split; (split; [exact L1|]).
  - intros k K. exists (ti k), (ex_join_line f (tx_word o k) (ti k) (ri k) P (d k)). split; [apply B|]. split; [exact OFF|].
    intros t T. split; [exact (ON t T)|]. split; reflexivity.
  - split; [exact M|]. intros k K. exists (ti k), (ex_join_line f (tx_word o k) (ti k) (ri k) P (d k)). split; [apply B|]. split; [exact OFF|].
    split; [reflexivity|]. split; [reflexivity|]. split; [|reflexivity]. intros t T. split; [exact (ON t T)|]. split; reflexivity.
Qed.

(** The whole way.  The transmitter has been running for [P] bit times when the receiver's
    clock generator locks; some time later its registers give the resolution, and a slot
    that software loads is filled with the picture. *)
Open Scope Z_scope.
Theorem C116_lock_to_slot :
  forall shift txaw depth txmem txra (ti : nat -> ot_in), 0 <= txaw -> length txmem = 4%nat ->
  forall u R t0, enabled_with shift txaw depth txmem txra ti u R t0 ->
  let p := timing_of R in
  params_ok p -> 24 <= p_hres p -> p_hres p + 30 <= p_hscan p + 1 -> 1 <= p_vres p <= p_vscan p ->
  p_hres p < p_hs_start p -> p_vres p <= p_vs_start p < p_vs_end p ->
  p_hres p * p_vres p < 2 ^ txaw -> nth 9 R 0 / 2 ^ shift = p_hres p * p_vres p ->
  forall E, clocks ti ((p_hscan p + 1) * (p_vscan p + 1)) E -> (forall x, ot_ready (ti x) = true) ->
  forall Mtx junk, let st := ot_run shift txaw depth txmem txra ti in
  let o n := ot_px shift txaw Mtx (junk n) (st (E n)) (ti (E n)) in
  let dv n := ot_dv shift txaw (st (E n)) (ti (E n)) in
  let n0 := occurrences (fun x => ot_cd (ti x)) 0 t0 in
  forall T, (n0 <= T)%nat -> (forall n, (T <= n)%nat -> px_de (o n) = true -> dv n = true) ->
  let late := (n0 + underflows o dv T)%nat in
  forall g, 1 <= g -> Z.of_nat T + 30 <= Z.of_nat late + 1 + g * ((p_vscan p + 1) * (p_hscan p + 1)) ->
  forall r f P d Lk, locks r f o P d Lk -> forall dmin, (forall k, (k < 3)%nat -> (dmin <= d k <= dmin + 70)%nat) -> (P + 41 <= 10 * T)%nat ->
  exists b e, rx_edge r b = true /\ (Lk < b <= Lk + 4 * rx_period r)%nat /\ (e <= 32)%nat /\
  let N := ((P + e + 9) / 10)%nat in let L k := (gear_bits r + d k + (10 * N - (P + e)))%nat in
  let raw n k := rx_word r (b + rx_period r * n) k in
  forall s0, rx_state_ok s0 ->
  forall k m, (1 <= k)%nat -> let F := (2 ^ k)%nat in p_hres p * p_vres p = Z.of_nat (F * m) ->
  exists D, (forall k, (k < 3)%nat -> (L k / 10 + 7 < D <= L k / 10 + 15)%nat) /\
  (forall n, Z.of_nat late + Z.of_nat D + (g + 4) * ((p_vscan p + 1) * (p_hscan p + 1)) <= Z.of_nat (N + n) ->
   let r := rx_rd (rx_run s0 raw n) in rd_h r = nth 0 R 0 mod 2 ^ 11 /\ rd_v r = nth 4 R 0 mod 2 ^ 11) /\
  forall n aw align mem ra ns (i : nat -> cap_in), let dw := 32 * Z.of_nat F in
  forall K Ed B T0 w c, capturing n F 32 aw dw align mem ra ns i (pk_stream s0 raw) K Ed B m T0 w c ->
  let vsync_of v := 1 + (v * (p_vscan p + 1) + p_vs_start p) * (p_hscan p + 1) in
  Z.of_nat (N + occurrences (fun v => cap_pix (i v)) 0 T0) = vsync_of (g + 2) + Z.of_nat (late + D) + 1 ->
  let a := word_address aw align (slot_address n F 32 aw dw align mem ra ns i w c) in
  exists z, (w < z)%nat /\ slot_status n F 32 aw dw align mem ra ns i z c = 2 /\
  forall M, let M' := after M (collect (c_write n F 32 aw dw align mem ra (dma_init ns) i) w (z - w)) in
  (forall q, (q < F * m)%nat ->
     slice (32 * Z.of_nat (F - 1 - q mod F)) 32 (M' ((a + Z.of_nat (q / F)) mod 2 ^ aw)) =
     stored (Mtx (picture_word shift txaw R (Z.of_nat q)))) /\
  (forall v, (forall j, (j < m)%nat -> v <> (a + Z.of_nat j) mod 2 ^ aw) -> M' v = M v).
Proof.
  intros shift txaw depth txmem txra ti Haw HM u R t0 Hon p ok H1 H2 H3 H4 H5 HLen Hl E HE Hready Mtx junk st o dv n0 T HT0 HT late g Hg HTg
    r f P d Lk HL dmin HD HT1.
  destruct (C116_lock r f o P d Lk HL dmin HD) as (b & e & B1 & B2 & B3 & LA).
  exists b, e. split; [exact B1|]. split; [exact B2|]. split; [exact B3|]. intros N L raw s0 HS.
  assert (HN : (N <= T)%nat) by (unfold N; apply Nat.div_le_upper_bound; lia).
  exact (C116_registers_to_slot shift txaw depth txmem txra ti Haw HM u R t0 Hon ok H1 H2 H3 H4 H5 HLen Hl E HE Hready Mtx junk T HT0 HT g Hg HTg
    N HN L (gear_bits r + dmin + (10 * N - (P + e)))%nat raw s0 (LA s0 HS)).
Qed.
Print Assumptions C116_lock_to_slot.
