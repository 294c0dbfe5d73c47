(** C89: from the transmitter's memory to the receiver's memory in ycbcr422 mode. *)
From Coq Require Import ZArith List Bool Lia Arith.
From Verif Require Import Hdl Trace AnalysisModel TimingModel TimingSpec TimingProofs VideoOutModel VideoOutProofs
  FrameProofs FrameProps HdmiModel LinkModel LinkProofs LinkProps InDmaModel InDmaProofs InDmaProps CaptureModel CaptureProofs CaptureProps
  PhyModel PhyProps StartupProofs StartupProps CscModel CscSpec YccPathModel YccPathProps YccLinkModel.
Import ListNotations.
Open Scope Z_scope.

(** The colour of the frame buffer word [d], as the video output shows it. *)
Definition colour (d : Z) : rgb := {| c_r := slice 0 8 d; c_g := slice 8 8 d; c_b := slice 16 8 d |}.

(** The 16-bit pixel stored for word number [q] of the stream [w]: the luma of that
    word in the low byte; above it, for even [q], the mean of the blue differences
    of the pair of words that [q] belongs to, and of the red ones for odd [q]. *)
Definition stored_422 (w : nat -> Z) (q : nat) : Z :=
  let conv k := spec_ycc 8 (colour (w k)) in
  let a := conv (2 * (q / 2))%nat in
  let b := conv (2 * (q / 2) + 1)%nat in
  c_y (conv q) + 256 * (if Nat.even q then (c_cb a + c_cb b) / 2 else (c_cr a + c_cr b) / 2).

Lemma clamp_byte : forall v, 0 <= clamp 0 (2 ^ 8 - 1) v < 256.
Proof. intros v. unfold clamp. change (2 ^ 8 - 1) with 255. lia. Qed.

Lemma stored_422_range : forall w q, 0 <= stored_422 w q < 2 ^ 16.
Proof.
  intros w q. unfold stored_422. cbv zeta.
  assert (H : forall x, 0 <= c_y (spec_ycc 8 x) < 256 /\ 0 <= c_cb (spec_ycc 8 x) < 256 /\ 0 <= c_cr (spec_ycc 8 x) < 256).
  { intros x. unfold spec_ycc. cbn [c_y c_cb c_cr]. pose proof clamp_byte. auto. }
  assert (M : forall a b, 0 <= a < 256 -> 0 <= b < 256 -> 0 <= (a + b) / 2 < 256).
  { intros a b A B. split; [apply Z.div_pos; lia|apply Z.div_lt_upper_bound; lia]. }
  pose proof (H (colour (w q))) as (A & _ & _).
  set (ca := spec_ycc 8 (colour (w (2 * (q / 2))%nat))) in *. pose proof (H (colour (w (2 * (q / 2))%nat))) as (_ & A1 & A2). fold ca in A1, A2.
  set (cb := spec_ycc 8 (colour (w (2 * (q / 2) + 1)%nat))) in *. pose proof (H (colour (w (2 * (q / 2) + 1)%nat))) as (_ & B1 & B2). fold cb in B1, B2.
  pose proof (M _ _ A1 B1). pose proof (M _ _ A2 B2). change (2 ^ 16) with 65536. destruct (Nat.even q); lia.
Qed.

Lemma colour_ok : forall d, rgb_ok 8 (colour d).
Proof. intros d. unfold rgb_ok, colour, slice. cbn [c_r c_g c_b]. repeat split; apply Z.mod_pos_bound; lia. Qed.

Section Ycc.
Variable p : fparam.
Hypothesis lk : link_ok p.
Hypothesis EV : Z.even (p_hres p) = true.
Variable w : nat -> Z.
Variable s0 : rx_st.
Variable raw : nat -> nat -> Z.
Variables (D : nat) (g : Z).
Hypothesis Hg : 0 <= g.
Hypothesis P : forall n, (clk p g 0 (p_hres p) <= n)%nat ->
  let o := rx_sp (rx_run s0 raw (n + D)) in
  sp_valid o = true /\ sp_de o = tx_de p n /\ sp_hsync o = tx_hs p n /\ sp_vsync o = tx_vs p n /\
  (tx_de p n = true ->
   let d := w (pixels_before p (n - 1)) in sp_r o = slice 0 8 d /\ sp_g o = slice 8 8 d /\ sp_b o = slice 16 8 d).
Variable F : nat.
Let i n := rx_fe_in (rx_run s0 raw n).

Lemma line_index : forall f y x, 0 <= f -> 0 <= y < p_vres p -> 0 <= x < p_hres p ->
  Z.of_nat (pixels_before p (clk p f y x - 1)) = f * (p_hres p * p_vres p) + (y * p_hres p + x).
Proof.
  intros f y x HF Y X. destruct lk as [ok ? ? ? ? ?]. pose proof ok as OK. destruct OK as [? ? ? ? ? ? ? ?].
  pose proof (clk_z p lk f y x HF ltac:(lia) ltac:(lia)) as Z1. pose proof (clk_pos p lk f y x HF ltac:(lia) ltac:(lia)).
  destruct (clk_xy p lk f y x HF ltac:(lia) ltac:(lia)) as [EX EY].
  rewrite pixels_before_closed by exact ok. cbv zeta. replace (Z.of_nat (clk p f y x - 1)) with (Z.of_nat (clk p f y x) - 1) by lia.
  rewrite EX, EY. destruct (Z.ltb_spec y (p_vres p)); [|lia]. rewrite Z.min_l by lia. f_equal. f_equal.
  rewrite Z1. replace (1 + (f * (p_vscan p + 1) + y) * (p_hscan p + 1) + x - 1) with ((f * (p_vscan p + 1) + y) * (p_hscan p + 1) + x) by lia.
  replace (((f * (p_vscan p + 1) + y) * (p_hscan p + 1) + x) / (p_hscan p + 1)) with (f * (p_vscan p + 1) + y) by (apply (Z.div_unique _ _ _ x); lia).
  symmetry. apply (Z.div_unique _ _ _ y); lia.
Qed.

(** The lines of the transmitter arrive as lines of the frame extraction. *)
Lemma i_line : forall f y, 0 <= f -> 0 <= y < p_vres p -> (clk p g 0 (p_hres p) < clk p f y 0)%nat ->
  in_line i (clk p f y 0 + D) (Z.to_nat (p_hres p)) /\
  forall x, (x < Z.to_nat (p_hres p))%nat ->
  fi_px (i (clk p f y 0 + D + x)) = colour (w (Z.to_nat (f * (p_hres p * p_vres p) + y * p_hres p) + x)).
Proof.
  intros f y HF Y LT. destruct lk as [ok ? ? ? ? ?]. pose proof ok as OK. destruct OK as [? ? ? ? ? ? ? ?].
  assert (AT : forall x, (x < Z.to_nat (p_hres p))%nat ->
    tx_de p (clk p f y 0 + x) = true /\ Z.of_nat (pixels_before p (clk p f y 0 + x - 1)) = f * (p_hres p * p_vres p) + (y * p_hres p + Z.of_nat x)).
  { intros x X. rewrite <- (clk_succ_x p lk f y 0 x) by lia. rewrite Z.add_0_l. split.
    - rewrite clk_de by (try exact lk; lia). apply andb_true_iff. split; apply Z.ltb_lt; lia.
    - apply line_index; lia. }
  assert (PX : forall x, (x < Z.to_nat (p_hres p))%nat ->
    fi_de (i (clk p f y 0 + D + x)) = true /\ fi_valid (i (clk p f y 0 + D + x)) = true /\
    fi_px (i (clk p f y 0 + D + x)) = colour (w (Z.to_nat (f * (p_hres p * p_vres p) + y * p_hres p) + x))).
  { intros x X. destruct (AT x X) as [A B]. destruct (P (clk p f y 0 + x)%nat ltac:(lia)) as (P1 & P2 & _ & _ & P3).
    replace (clk p f y 0 + D + x)%nat with (clk p f y 0 + x + D)%nat by lia. unfold i, rx_fe_in. cbn [fi_de fi_valid fi_px].
    rewrite P1, P2, A. split; [reflexivity|]. split; [reflexivity|]. destruct (P3 A) as (R & G & Bl). rewrite R, G, Bl. unfold colour.
    replace (Z.to_nat (f * (p_hres p * p_vres p) + y * p_hres p) + x)%nat with (pixels_before p (clk p f y 0 + x - 1)); [reflexivity|].
    apply Nat2Z.inj. rewrite B, Nat2Z.inj_add, Z2Nat.id by nia. lia. }
  split; [|intros x X; apply (PX x X)]. split; [|split].
  - intros m M. replace m with (clk p f y 0 - 1 + D)%nat by lia. unfold i, rx_fe_in. cbn [fi_de].
    destruct (P (clk p f y 0 - 1)%nat ltac:(lia)) as (_ & -> & _).
    unfold tx_de. destruct (Nat.leb_spec 1 (clk p f y 0 - 1)); [|reflexivity]. cbn [andb].
    pose proof (clk_z p lk f y 0 HF ltac:(lia) ltac:(lia)) as Z1. unfold spec_de. apply andb_false_iff. left. apply Z.ltb_ge.
    unfold scan_x. replace (Z.of_nat (clk p f y 0 - 1) - 1) with (p_hscan p + (f * (p_vscan p + 1) + y - 1) * (p_hscan p + 1)) by nia.
    rewrite Z.mod_add, Z.mod_small by lia. lia.
  - intros k K. destruct (PX (k - (clk p f y 0 + D))%nat ltac:(lia)) as (A & B & C).
    replace (clk p f y 0 + D + (k - (clk p f y 0 + D)))%nat with k in A, B, C by lia. rewrite C. split; [exact A|]. split; [exact B|]. apply colour_ok.
  - intros k K. destruct (P (k - D)%nat ltac:(lia)) as (_ & A & _). replace (k - D + D)%nat with k in A by lia.
    unfold i, rx_fe_in. cbn [fi_de]. rewrite A. replace (k - D)%nat with (clk p f y 0 + (k - D - clk p f y 0))%nat by lia.
    rewrite <- (clk_succ_x p lk f y 0) by lia. rewrite clk_de by (try exact lk; lia). apply andb_false_iff. left. apply Z.ltb_ge. lia.
Qed.

(** A clock in which a pixel is sent lies on a line. *)
Lemma de_on_line : forall n, tx_de p n = true -> exists f y x, 0 <= f /\ 0 <= y < p_vres p /\ (x < Z.to_nat (p_hres p))%nat /\
  n = (clk p f y 0 + x)%nat.
Proof.
  intros n H. destruct lk as [ok ? ? ? ? ?]. pose proof ok as OK. destruct OK as [? ? ? ? ? ? ? ?].
  unfold tx_de in H. apply andb_true_iff in H as [N1 H]. apply Nat.leb_le in N1.
  unfold spec_de, scan_x, scan_y in H. apply andb_true_iff in H as [HX HY]. apply Z.ltb_lt in HX. apply Z.ltb_lt in HY.
  set (t := Z.of_nat n - 1) in *. pose proof (Z.div_mod t (p_hscan p + 1) ltac:(lia)) as D1.
  pose proof (Z.mod_pos_bound t (p_hscan p + 1) ltac:(lia)) as B1. set (q := t / (p_hscan p + 1)) in *.
  pose proof (Z.div_mod q (p_vscan p + 1) ltac:(lia)) as D2. pose proof (Z.mod_pos_bound q (p_vscan p + 1) ltac:(lia)) as B2.
  assert (T0 : 0 <= t) by (unfold t; lia). assert (Q0 : 0 <= q) by (apply Z.div_pos; lia).
  assert (F0 : 0 <= q / (p_vscan p + 1)) by (apply Z.div_pos; lia).
  exists (q / (p_vscan p + 1)), (q mod (p_vscan p + 1)), (Z.to_nat (t mod (p_hscan p + 1))).
  split; [exact F0|]. split; [lia|]. split; [lia|]. apply Nat2Z.inj. rewrite Nat2Z.inj_add, clk_z by (try exact lk; lia).
  rewrite Z2Nat.id by lia. replace (q / (p_vscan p + 1) * (p_vscan p + 1) + q mod (p_vscan p + 1)) with q by lia. unfold t in *. lia.
Qed.

Lemma even_half : forall b x, Nat.even b = true -> ((b + x) / 2 = b / 2 + x / 2 /\ Nat.even (b + x) = Nat.even x /\ 2 * (b / 2) = b)%nat.
Proof.
  intros b x E. apply Nat.even_spec in E as [c ->].
  split; [|split].
  - replace (2 * c + x)%nat with (x + c * 2)%nat by lia. rewrite Nat.div_add by lia. rewrite (Nat.mul_comm 2 c), Nat.div_mul by lia. lia.
  - rewrite Nat.even_add, Nat.even_mul. cbn. destruct (Nat.even x); reflexivity.
  - rewrite (Nat.mul_comm 2 c), Nat.div_mul by lia. lia.
Qed.

Lemma ycc_vs : forall n, (clk p g 0 (p_hres p) <= n)%nat -> pki_vsync (ycc_pk_stream F s0 raw (n + D)) = tx_vs p n.
Proof. intros n Hn. destruct (P n Hn) as (_ & _ & _ & A & _). exact A. Qed.

Lemma ycc_px : forall n, (clk p g 0 (p_hres p) <= n)%nat -> pixel_in (ycc_pk_stream F s0 raw) (n + (D + 11)) =
  if tx_de p n then Some (stored_422 w (pixels_before p (n - 1))) else None.
Proof.
  intros n Hn. destruct lk as [ok ? ? ? ? ?]. pose proof ok as OK. destruct OK as [? ? ? ? ? ? ? ?].
  change (pixel_in (ycc_pk_stream F s0 raw) (n + (D + 11))) with (fe_pixel (fe_run F i (n + (D + 11))) (i (n + (D + 11))%nat)).
  replace (n + (D + 11))%nat with (n + D + 11)%nat by lia.
  destruct (tx_de p n) eqn:E.
  - destruct (de_on_line n E) as (f & y & x & HF & Y & X & EN).
    assert (LT : (clk p g 0 (p_hres p) < clk p f y 0)%nat).
    { pose proof (clk_z p lk g 0 (p_hres p) Hg ltac:(lia) ltac:(lia)) as Z1. pose proof (clk_z p lk f y 0 HF ltac:(lia) ltac:(lia)) as Z2.
      set (a := g * (p_vscan p + 1) + 0) in *. set (b := f * (p_vscan p + 1) + y) in *.
      destruct (Z.le_gt_cases b a) as [L|L].
      - exfalso. assert (b * (p_hscan p + 1) <= a * (p_hscan p + 1)) by (apply Z.mul_le_mono_nonneg_r; lia). lia.
      - assert ((a + 1) * (p_hscan p + 1) <= b * (p_hscan p + 1)) by (apply Z.mul_le_mono_nonneg_r; lia). lia. }
    destruct (i_line f y HF Y LT) as [IL IP].
    assert (HE : Nat.even (Z.to_nat (p_hres p)) = true).
    { apply Z.even_spec in EV as [c EC]. apply Nat.even_spec. exists (Z.to_nat c). lia. }
    rewrite EN. replace (clk p f y 0 + x + D + 11)%nat with (clk p f y 0 + D + x + 11)%nat by lia.
    rewrite (C65_captured_pixels F i _ _ HE IL x X). f_equal.
    assert (EQ : pixels_before p (clk p f y 0 + x - 1) = (Z.to_nat (f * (p_hres p * p_vres p) + y * p_hres p) + x)%nat).
    { rewrite <- (clk_succ_x p lk f y 0 x) by lia. rewrite Z.add_0_l. apply Nat2Z.inj. rewrite line_index by lia.
      rewrite Nat2Z.inj_add, Z2Nat.id by nia. lia. }
    rewrite EQ. set (b := Z.to_nat (f * (p_hres p * p_vres p) + y * p_hres p)) in *.
    assert (EB : Nat.even b = true).
    { apply Z.even_spec in EV as [c EC]. apply Nat.even_spec. exists (Z.to_nat ((f * p_vres p + y) * c)). unfold b.
      replace (f * (p_hres p * p_vres p) + y * p_hres p) with (2 * ((f * p_vres p + y) * c)) by (rewrite EC; ring).
      assert (0 <= (f * p_vres p + y) * c) by (apply Z.mul_nonneg_nonneg; nia). lia. }
    destruct (even_half b x EB) as (E1 & E2 & E3). destruct (even_half _ (Z.to_nat (p_hres p)) HE) as (_ & _ & E4).
    unfold line_422, stored_422, ycc_at. cbv zeta. rewrite E1, E2. replace (2 * (b / 2 + x / 2))%nat with (b + 2 * (x / 2))%nat by lia.
    assert (X1 : (2 * (x / 2) <= x)%nat) by (apply Nat.mul_div_le; lia).
    assert (X2 : (2 * (x / 2) + 1 < Z.to_nat (p_hres p))%nat).
    { assert (x / 2 < Z.to_nat (p_hres p) / 2)%nat by (apply Nat.div_lt_upper_bound; lia). lia. }
    rewrite (IP x X), (IP (2 * (x / 2))%nat) by lia.
    replace (clk p f y 0 + D + 2 * (x / 2) + 1)%nat with (clk p f y 0 + D + (2 * (x / 2) + 1))%nat by lia. rewrite IP by lia.
    replace (b + 2 * (x / 2) + 1)%nat with (b + (2 * (x / 2) + 1))%nat by lia. reflexivity.
  - destruct (fe_pixel (fe_run F i (n + D + 11)) (i (n + D + 11)%nat)) eqn:Q; [|reflexivity]. exfalso.
    destruct (proj1 (C65_nothing_else F i (n + D + 11)) ltac:(rewrite Q; discriminate)) as (m & EM & _ & A).
    replace m with (n + D)%nat in A by lia. destruct (P n Hn) as (_ & B & _). unfold i, rx_fe_in in A. cbn [fi_de] in A. congruence.
Qed.
End Ycc.

(** The whole chain of C85 with the receiver in ycbcr422 mode, the default of
    HDMIIn: words of [F] 16-bit pixels.  Pairs of pixels must not straddle lines. *)
Theorem C89_memory_to_memory_422 :
  forall txaw depth pr (ti : nat -> vt_in), let p := vp_t pr in
  (params_ok p -> 24 <= p_hres p -> p_hres p + 30 <= p_hscan p + 1 -> 1 <= p_vres p <= p_vscan p ->
  p_hres p < p_hs_start p -> p_vres p <= p_vs_start p < p_vs_end p -> Z.even (p_hres p) = true ->
  0 <= txaw -> vp_length pr = p_hres p * p_vres p -> vp_length pr <= 2 ^ txaw ->
  (forall n q, ti_push (ti n) = Some q -> q = pr) -> (forall n, vt_q (vt_run txaw depth [pr] ti n) <> []) ->
  (forall n, ti_ready (ti n) = true) ->
  forall Mtx junk,
  let o n := vt_px Mtx (junk n) (vt_run txaw depth [pr] ti n) (ti n) in
  let dv n := vi_dv (vt_vi (vt_run txaw depth [pr] ti n) (ti n)) in
  forall T, (forall n, (T <= n)%nat -> px_de (o n) = true -> dv n = true) -> let u := underflows o dv T in
  forall g, 1 <= g -> Z.of_nat T + 30 <= Z.of_nat u + 1 + g * ((p_vscan p + 1) * (p_hscan p + 1)) ->
  forall L Lmin raw s0, link o L Lmin raw s0 ->
  forall k m, (1 <= k)%nat -> let F := (2 ^ k)%nat in p_hres p * p_vres p = Z.of_nat (F * m) ->
  exists D, (forall k, (k < 3)%nat -> (L k / 10 + 7 < D <= L k / 10 + 15)%nat) /\
  forall n aw align mem ra d0 (i : nat -> cap_in), let dw := 16 * Z.of_nat F in
  1 <= n -> Z.of_nat (length mem) = 2 ^ n -> 0 < aw ->
  (forall t, cap_pix (i t) = true -> cap_pk (i t) = ycc_pk_stream F s0 raw (occurrences (fun v => cap_pix (i v)) 0 t)) ->
  forall T0 x y, (T0 <= x < y)%nat ->
  let vsync_of v := 1 + (v * (p_vscan p + 1) + p_vs_start p) * (p_hscan p + 1) in
  Z.of_nat (occurrences (fun v => cap_pix (i v)) 0 T0) = vsync_of (g + 2) + Z.of_nat (u + D) + 1 ->
  (forall t, (T0 <= t <= y)%nat -> c_lost n F 16 aw dw align mem ra d0 i t = false) ->
  (length (collect (c_kept n F 16 aw dw align mem ra d0 i) 0 T0) <= length (collect (c_taken n F 16 aw dw align mem ra d0 i) 0 x))%nat ->
  c_starts n F 16 aw dw align mem ra d0 i x = true -> Z.of_nat m = size_words aw align (cap_size (i x)) ->
  occurrences (c_accepted n F 16 aw dw align mem ra d0 i) (x + 1) (y - x - 1) = (m - 1)%nat ->
  c_accepted n F 16 aw dw align mem ra d0 i y = true ->
  let a := word_address aw align (sl_addr (dm_slot (cap_dma (cap_run n F 16 aw dw align mem ra d0 i x)))) in
  forall M, let M' := after M (collect (c_write n F 16 aw dw align mem ra d0 i) (x + 1) (y - x)) in
  (forall q, (q < F * m)%nat ->
     slice (16 * Z.of_nat (F - 1 - q mod F)) 16 (M' ((a + Z.of_nat (q / F)) mod 2 ^ aw)) =
     stored_422 (fun j => Mtx ((vp_base pr + Z.of_nat j) mod 2 ^ txaw)) q) /\
  (forall z, (forall j, (j < m)%nat -> z <> (a + Z.of_nat j) mod 2 ^ aw) -> M' z = M z))%Z.
Proof.
  intros txaw depth pr ti p ok H1 H2 H3 H4 H5 EV Haw HL HLen Hpush Hq Hready Mtx junk o dv T HT u g Hg HTg L Lmin raw s0 Hl k m Hk F HF.
  assert (lk : link_ok p) by (constructor; assumption).
  assert (Hlen : 0 < vp_length pr <= 2 ^ txaw) by nia.
  set (w := fun q => Mtx (wordaddr txaw pr q)). set (o' := uf_stream p w dv junk).
  assert (E : forall n, o n = o' n) by exact (vt_is_uf txaw depth pr ti Haw Hlen ok Hpush dr_init [] 0%nat 0 ltac:(lia) (reader_init txaw pr ltac:(lia)) Hq Hready Mtx junk).
  assert (EU : u = underflows o' dv T).
  { unfold u, underflows. apply occurrences_ext. intros t _. rewrite E. reflexivity. }
  assert (HT' : forall n, (T <= n)%nat -> px_de (o' n) = true -> dv n = true) by (intros n N X; apply (HT n N); rewrite E; exact X).
  assert (CK : Z.of_nat T + 30 <= Z.of_nat u + Z.of_nat (clk p g 0 0)).
  { rewrite clk_z by (try exact lk; lia). nia. }
  rewrite EU in CK.
  destruct (link_uf p lk w dv junk T HT' g Hg CK L Lmin raw s0 (link_ext _ _ L Lmin raw s0 E Hl)) as (D & B & P).
  exists D. split; [exact B|]. fold o' in P. rewrite <- EU in P.
  pose proof (packed_words p lk (ycc_pk_stream F s0 raw) (u + D) 11 ltac:(lia) (stored_422 w) (g + 1) ltac:(lia)
    (ycc_vs p w s0 raw (u + D) (g + 1) P F) (ycc_px p lk EV w s0 raw (u + D) (g + 1) ltac:(lia) P F) k m Hk HF) as W.
  intros n aw align mem ra d0 i dw N HM Haw' HX T0 x y T0x vsync_of E0 NL OLD ST SZ CNT LAST a M M'.
  replace (g + 2) with (g + 1 + 1) in E0 by lia.
  destruct (frame_to_memory p lk (ycc_pk_stream F s0 raw) (stored_422 w) 16 (u + D)%nat (g + 1) ltac:(lia) (stored_422_range w) ltac:(lia)
    k m HF W n aw align mem ra d0 i N HM Haw' HX T0 x y T0x E0 NL OLD ST SZ CNT LAST M) as (f & A1 & A2 & A3). split; [|exact A3].
  intros q Q. etransitivity; [apply (A2 q Q)|]. fold F in Q |- *.
  assert (EF : Nat.even (F * m) = true).
  { unfold F. replace k with (S (k - 1)) by lia. cbn [Nat.pow]. rewrite !Nat.even_mul. reflexivity. }
  assert (EB : Nat.even (f * (F * m)) = true) by (rewrite Nat.even_mul, EF; apply orb_true_r).
  assert (WA : forall j, (j < F * m)%nat -> w (f * (F * m) + j)%nat = Mtx ((vp_base pr + Z.of_nat j) mod 2 ^ txaw)).
  { intros j J. unfold w, wordaddr, trunc.
    replace (Z.of_nat (f * (F * m) + j) mod vp_length pr) with (Z.of_nat j); [reflexivity|]. rewrite HL, HF.
    replace (Z.of_nat (f * (F * m) + j)) with (Z.of_nat j + Z.of_nat f * Z.of_nat (F * m)) by lia.
    rewrite Z.mod_add by lia. symmetry. apply Z.mod_small. lia. }
  destruct (even_half _ q EB) as (E1 & E2 & E3). destruct (even_half _ q EF) as (_ & _ & E4).
  unfold stored_422. cbv zeta. rewrite E1, E2. replace (2 * (f * (F * m) / 2 + q / 2))%nat with (f * (F * m) + 2 * (q / 2))%nat by lia.
  assert (X1 : (2 * (q / 2) <= q)%nat) by (apply Nat.mul_div_le; lia).
  assert (X2 : (2 * (q / 2) + 1 < F * m)%nat).
  { assert (q / 2 < F * m / 2)%nat by (apply Nat.div_lt_upper_bound; lia). lia. }
  replace (f * (F * m) + 2 * (q / 2) + 1)%nat with (f * (F * m) + (2 * (q / 2) + 1))%nat by lia.
  rewrite !WA by lia. reflexivity.
Qed.
Print Assumptions C89_memory_to_memory_422.

(** The mode of the examples of C72 and C85 has an even line length; a red, a blue
    and two grey pixels as stored. *)
Example ex_422 : Z.even (p_hres ex_mode) = true /\
  map (stored_422 (fun q => nth q [0xFF; 0xFF0000; 0x808080; 0x828282] 0)) (seq 0 4) = [0xB33D; 0xBA1E; 0x8090; 0x8092].
Proof. split; vm_compute; reflexivity. Qed.
(** And the hypotheses on the capture are met with 16-bit lanes and 32-bit words
    (inputs of C79's example). *)
Definition ex_cap_arg16 (A : Type) (f : Z -> nat -> Z -> Z -> Z -> Z -> list (bool * list Z) -> Z -> dma_st -> (nat -> cap_in) -> A) : A :=
  f 2%Z 2%nat 16%Z 8%Z 32%Z 3%Z (repeat (false, []) 4) 0%Z (dma_init 2) ex_cap_in.
Example ex_cap_hyps16 : exists T0 x y, (T0 <= x < y)%nat /\ occurrences (fun u => cap_pix (ex_cap_in u)) 0 T0 = ex_b 0 /\
  (forall t, (T0 <= t <= y)%nat -> ex_cap_arg16 _ c_lost t = false) /\
  (length (collect (ex_cap_arg16 _ c_kept) 0 T0) <= length (collect (ex_cap_arg16 _ c_taken) 0 x))%nat /\
  ex_cap_arg16 _ c_starts x = true /\ Z.of_nat 2 = size_words 8 3 (cap_size (ex_cap_in x)) /\
  occurrences (ex_cap_arg16 _ c_accepted) (x + 1) (y - x - 1) = (2 - 1)%nat /\ ex_cap_arg16 _ c_accepted y = true /\
  collect (ex_cap_arg16 _ c_write) (x + 1) (y - x) = [(8, 3 + 2 ^ 16 * 2); (9, 5 + 2 ^ 16 * 4)]%Z.
Proof.
  exists 21%nat, 31%nat, 46%nat. split; [lia|]. split; [vm_compute; reflexivity|]. split.
  - intros t T. assert (A : forallb (fun k => negb (ex_cap_arg16 _ c_lost k)) (seq 21 26) = true) by (vm_compute; reflexivity).
    rewrite forallb_forall in A. apply negb_true_iff, A, in_seq. lia.
  - split; [apply Nat.leb_le; vm_compute; reflexivity|]. repeat (split; [vm_compute; reflexivity|]). vm_compute. reflexivity.
Qed.
