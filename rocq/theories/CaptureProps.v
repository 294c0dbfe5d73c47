(** C79: frames arrive in memory.  Composition of the packer, the FIFO and the
    DMA across both clocks, then of the whole chain from the transmitter's frame
    buffer words to the receiver's memory. *)
From Coq Require Import ZArith List Bool Lia Arith.
From Verif Require Import Hdl Trace CdcProofs TimingModel TimingSpec TimingProofs VideoOutModel AnalysisModel FrameProps InDmaModel InDmaProofs
  InDmaProps HdmiModel LinkModel LinkProofs LinkProps FifoModel FifoProofs FifoProps CaptureModel CaptureProofs.
Import ListNotations.
Open Scope nat_scope.

(** Memory contents after a list of (address, data) writes. *)
Definition after (M : Z -> Z) (l : list (Z * Z)) : Z -> Z :=
  fold_left (fun M p z => if (z =? fst p)%Z then snd p else M z) l M.

Lemma after_snoc : forall M l p z, after M (l ++ [p]) z = if (z =? fst p)%Z then snd p else after M l z.
Proof. intros. unfold after. rewrite fold_left_app. reflexivity. Qed.

Lemma after_block : forall M (ad v : nat -> Z) m, (forall j k, j < m -> k < m -> ad j = ad k -> j = k) ->
  (forall j, j < m -> after M (map (fun j => (ad j, v j)) (seq 0 m)) (ad j) = v j) /\
  (forall z, (forall j, j < m -> z <> ad j) -> after M (map (fun j => (ad j, v j)) (seq 0 m)) z = M z).
Proof.
  intros M ad v. induction m as [|m IH]; intros INJ; [split; [intros; lia|reflexivity]|].
  destruct IH as [A B]; [intros; apply INJ; lia|]. split.
  - intros j J. rewrite seq_S, map_app. cbn [map Nat.add]. rewrite after_snoc. cbn [fst snd].
    destruct (Z.eqb_spec (ad j) (ad m)) as [E|E].
    + apply INJ in E; [subst; reflexivity|lia|lia].
    + apply A. destruct (Nat.eq_dec j m) as [->|]; [contradiction|lia].
  - intros z Z. rewrite seq_S, map_app. cbn [map Nat.add]. rewrite after_snoc. cbn [fst snd].
    destruct (Z.eqb_spec z (ad m)) as [E|E]; [exfalso; apply (Z m); [lia|exact E]|]. apply B. intros; apply Z; lia.
Qed.

(** The word register as one number: the first lane of [l] in the low [lw] bits,
    the next one above it, and so on. *)
Definition joined (lw : Z) (l : list Z) : Z := fold_right (fun px rest => px + rest * 2 ^ lw)%Z 0%Z l.
Lemma joined_lanes : forall lw l, joined lw l = lanes_z lw l.
Proof. intros lw. induction l as [|x l IH]; [reflexivity|]. cbn [joined fold_right lanes_z]. fold (joined lw l). rewrite IH. ring. Qed.

Section Windows.
Variables (n : Z) (F : nat) (lw aw dw align : Z) (mem : list (bool * list Z)) (ra : Z) (d0 : dma_st) (i : nat -> cap_in).
Hypothesis N : (1 <= n)%Z.
Hypothesis HM : Z.of_nat (length mem) = (2 ^ n)%Z.
Hypothesis Haw : (0 < aw)%Z.
Variables (X : nat -> pk_in) (b : nat -> nat) (m : nat) (wd : nat -> nat -> list Z).
Hypothesis M1 : 1 <= m.
Hypothesis HX : forall t, cap_pix (i t) = true -> cap_pk (i t) = X (occurrences (c_pix i) 0 t).
Let W (f : nat) : list (bool * list Z) := map (fun j => (Nat.eqb j 0, wd f j)) (seq 0 m).
Hypothesis HB : forall f, b f <= b (S f) /\ collect (word_out F X) (b f) (b (S f) - b f) = W f.
Variables (T0 y : nat).
Hypothesis HT0 : occurrences (c_pix i) 0 T0 = b 0.
Hypothesis HY : T0 <= y.
Hypothesis NL : forall t, T0 <= t <= y -> c_lost n F lw aw dw align mem ra d0 i t = false.

Lemma W_len : forall f, length (W f) = m.
Proof. intros f. unfold W. rewrite map_length, seq_length. reflexivity. Qed.

Lemma w_pk : forall t, fe_pk (fe_run n F mem ra (c_fin n F lw aw dw align mem ra d0 i) t) = pk_run F X (occurrences (c_pix i) 0 t).
Proof.
  intros t. apply (gated_run_clock (c_pix i) _ _ (pk_step F) (fun t => fe_pk (fe_run n F mem ra (c_fin n F lw aw dw align mem ra d0 i) t)) X).
  intros u. set (fin := c_fin n F lw aw dw align mem ra d0 i).
  change (fe_run n F mem ra fin (S u)) with (fe_step n F (fe_run n F mem ra fin u) (fin u)). unfold fe_step; cbn [fe_pk].
  change (fei_pix (fin u)) with (c_pix i u). change (fei_pk (fin u)) with (cap_pk (i u)).
  destruct (c_pix i u) eqn:E; [|reflexivity]. rewrite (HX u E). reflexivity.
Qed.

Lemma w_kept : forall len, T0 + len <= S y -> collect (c_kept n F lw aw dw align mem ra d0 i) T0 len =
  collect (word_out F X) (b 0) (occurrences (c_pix i) T0 len).
Proof.
  intros len L. rewrite <- HT0. apply collect_gated. intros t T. unfold c_kept, kept.
  pose proof (NL t ltac:(lia)) as D. unfold c_lost in D. rewrite D. unfold pushed. rewrite w_pk. reflexivity.
Qed.

Lemma w_windows : forall g, b 0 + g <= b g /\ collect (word_out F X) (b 0) (b g - b 0) = concat (map W (seq 0 g)).
Proof.
  induction g as [|g [A B]]; [rewrite Nat.sub_diag; split; [lia|reflexivity]|].
  destruct (HB g) as [C D].
  assert (LT : b g < b (S g)).
  { destruct (Nat.eq_dec (b g) (b (S g))) as [E|]; [|lia]. exfalso. rewrite E, Nat.sub_diag in D. pose proof (W_len g) as L. rewrite <- D in L. cbn in L. lia. }
  split; [lia|]. replace (b (S g) - b 0) with ((b g - b 0) + (b (S g) - b g)) by lia. rewrite collect_app, B.
  replace (b 0 + (b g - b 0)) with (b g) by lia. rewrite D, seq_S, map_app, concat_app. cbn [map concat Nat.add]. rewrite app_nil_r. reflexivity.
Qed.

(** The stored word number [R], with [R] past the words stored before [T0]. *)
Lemma w_nth : forall R, length (collect (c_kept n F lw aw dw align mem ra d0 i) 0 T0) <= R ->
  R < length (collect (c_kept n F lw aw dw align mem ra d0 i) 0 (S y)) ->
  let q := R - length (collect (c_kept n F lw aw dw align mem ra d0 i) 0 T0) in
  nth R (collect (c_kept n F lw aw dw align mem ra d0 i) 0 (S y)) fe_word0 = (Nat.eqb (q mod m) 0, wd (q / m) (q mod m)).
Proof.
  intros R R0 R1 q. set (K := c_kept n F lw aw dw align mem ra d0 i) in *.
  replace (S y) with (T0 + (S y - T0)) in R1 |- * by lia. rewrite collect_app in R1 |- *. rewrite app_length in R1.
  rewrite app_nth2 by lia. fold q. rewrite Nat.add_0_l in R1 |- *. unfold K in R1 at 2. unfold K at 1. rewrite w_kept in R1 |- * by lia.
  set (len := occurrences (c_pix i) T0 (S y - T0)) in *. destruct (w_windows len) as [A B].
  assert (QL : q < length (collect (word_out F X) (b 0) len)) by (unfold q; lia).
  rewrite (nth_prefix _ _ fe_word0 (b 0) len (b len - b 0) q) by (lia || exact QL). rewrite B.
  assert (Q2 : q < len * m).
  { rewrite <- (concat_windows_length _ W m W_len len 0), <- B.
    replace (b len - b 0) with (len + (b len - b 0 - len)) by lia. rewrite collect_app, app_length. lia. }
  rewrite (nth_windows _ fe_word0 W m M1 W_len len 0 q Q2). cbn [Nat.add]. unfold W. rewrite nth_map_seq; [reflexivity|].
  apply Nat.mod_upper_bound. lia.
Qed.
End Windows.

(** Whatever the packer is fed with: if from pix clock [b 0] on it produces
    frames of [m] words, of which exactly the first is tagged, and no word is
    lost from then on, then a capture of [m] words that starts after the older
    words have been taken writes one whole frame into the buffer of the slot in
    use, and nothing outside that buffer. *)
Theorem C79_frame_in_memory :
  forall n F lw aw dw align mem ra d0 (i : nat -> cap_in),
  (1 <= n)%Z -> Z.of_nat (length mem) = (2 ^ n)%Z -> (0 < aw)%Z ->
  forall (x_in : nat -> pk_in) (b : nat -> nat) m (words : nat -> nat -> list Z), 1 <= m ->
  (forall t, cap_pix (i t) = true -> cap_pk (i t) = x_in (occurrences (fun u => cap_pix (i u)) 0 t)) ->
  (forall f, b f <= b (S f) /\
     collect (word_out F x_in) (b f) (b (S f) - b f) = map (fun j => (Nat.eqb j 0, words f j)) (seq 0 m)) ->
  forall T0 x y, T0 <= x < y -> occurrences (fun u => cap_pix (i u)) 0 T0 = b 0 ->
  (forall t, T0 <= t <= y -> c_lost n F lw aw dw align mem ra d0 i t = false) ->
  length (collect (c_kept n F lw aw dw align mem ra d0 i) 0 T0) <= length (collect (c_taken n F lw aw dw align mem ra d0 i) 0 x) ->
  c_starts n F lw aw dw align mem ra d0 i x = true -> Z.of_nat m = size_words aw align (cap_size (i x)) ->
  occurrences (c_accepted n F lw aw dw align mem ra d0 i) (x + 1) (y - x - 1) = m - 1 ->
  c_accepted n F lw aw dw align mem ra d0 i y = true ->
  let a := word_address aw align (sl_addr (dm_slot (cap_dma (cap_run n F lw aw dw align mem ra d0 i x)))) in
  forall M, let M' := after M (collect (c_write n F lw aw dw align mem ra d0 i) (x + 1) (y - x)) in
  exists f, (forall j, j < m -> M' ((a + Z.of_nat j) mod 2 ^ aw)%Z = (joined lw (words f j) mod 2 ^ dw)%Z) /\
  (forall z, (forall j, j < m -> z <> ((a + Z.of_nat j) mod 2 ^ aw)%Z) -> M' z = M z).
Proof.
  intros n F lw aw dw align mem ra d0 i N HM Haw X b m wd M1 HX HB T0 x y T HT NL OLD ST SZ CNT LAST a M M'.
  destruct (one_capture n F lw aw dw align mem ra d0 i N HM Haw x y m ltac:(lia) ST SZ M1 CNT LAST) as (L & TAG & WR). fold a in WR.
  set (R := length (collect (c_taken n F lw aw dw align mem ra d0 i) 0 x)) in *.
  set (A := length (collect (c_kept n F lw aw dw align mem ra d0 i) 0 T0)) in *.
  assert (NTH := w_nth n F lw aw dw align mem ra d0 i N X b m wd M1 HX HB T0 y HT ltac:(lia) NL). cbv zeta in NTH. fold A in NTH.
  rewrite NTH in TAG by lia. cbn [fst] in TAG. apply Nat.eqb_eq in TAG.
  set (q := R - A) in *. exists (q / m).
  assert (WR' : collect (c_write n F lw aw dw align mem ra d0 i) (x + 1) (y - x) =
    map (fun j => (((a + Z.of_nat j) mod 2 ^ aw)%Z, (joined lw (wd (q / m)%nat j) mod 2 ^ dw)%Z)) (seq 0 m)).
  { rewrite WR. apply map_ext_in. intros j J. apply in_seq in J. rewrite NTH by lia. cbn [snd]. rewrite joined_lanes. unfold trunc.
    replace (R + j - A) with (q + j) by (unfold q; lia).
    pose proof (Nat.div_mod q m ltac:(lia)) as DM. rewrite TAG, Nat.add_0_r in DM.
    replace (q + j) with (j + (q / m) * m) by lia. rewrite Nat.div_add, Nat.mod_add, Nat.div_small, Nat.mod_small by lia. reflexivity. }
  unfold M'. rewrite WR'. apply after_block. intros j k J K E.
  assert (m2 : (Z.of_nat m < 2 ^ aw)%Z) by (rewrite SZ; apply Z.mod_pos_bound, Z.pow_pos_nonneg; lia).
  assert (D : ((Z.of_nat j - Z.of_nat k) mod 2 ^ aw = 0)%Z).
  { replace (Z.of_nat j - Z.of_nat k)%Z with ((a + Z.of_nat j) - (a + Z.of_nat k))%Z by lia. rewrite Zminus_mod, E, Z.sub_diag. reflexivity. }
  apply Z.mod_divide in D; [|lia]. destruct D as [c D]. assert (c = 0)%Z by nia. nia.
Qed.
Print Assumptions C79_frame_in_memory.

Lemma stored_range : forall d, (0 <= stored d < 2 ^ 32)%Z.
Proof.
  intros d. unfold stored, rgb_pixel, slice.
  pose proof (Z.mod_pos_bound (d / 2 ^ 0) (2 ^ 8) ltac:(lia)). pose proof (Z.mod_pos_bound (d / 2 ^ 8) (2 ^ 8) ltac:(lia)).
  pose proof (Z.mod_pos_bound (d / 2 ^ 16) (2 ^ 8) ltac:(lia)).
  set (u := ((d / 2 ^ 0) mod 2 ^ 8)%Z) in *. set (v := ((d / 2 ^ 8) mod 2 ^ 8)%Z) in *. set (s := ((d / 2 ^ 16) mod 2 ^ 8)%Z) in *.
  change (2 ^ 8)%Z with 256%Z in *. change (2 ^ 32)%Z with 4294967296%Z. lia.
Qed.
Lemma lanes_range : forall lw l, (0 <= lw)%Z -> (forall x, In x l -> (0 <= x < 2 ^ lw)%Z) ->
  (0 <= lanes_z lw l < 2 ^ (lw * Z.of_nat (length l)))%Z.
Proof.
  intros lw l W. induction l as [|x l IH]; intros H; [rewrite Z.mul_0_r; cbn; lia|]. cbn [lanes_z length].
  pose proof (H x (or_introl eq_refl)). pose proof (IH (fun v Hv => H v (or_intror Hv))) as I.
  replace (lw * Z.of_nat (S (length l)))%Z with (lw + lw * Z.of_nat (length l))%Z by lia. rewrite Z.pow_add_r by lia. nia.
Qed.

Lemma lanes_slice : forall lw l, (0 <= lw)%Z -> (forall x, In x l -> (0 <= x < 2 ^ lw)%Z) -> forall k, k < length l ->
  slice (lw * Z.of_nat k) lw (lanes_z lw l) = nth k l 0%Z.
Proof.
  intros lw l W. induction l as [|x l IH]; intros H k K; cbn [length] in K; [lia|]. pose proof (H x (or_introl eq_refl)) as X.
  assert (P : (0 < 2 ^ lw)%Z) by (apply Z.pow_pos_nonneg; lia).
  cbn [lanes_z]. unfold slice. destruct k as [|k]; cbn [nth].
  - change (Z.of_nat 0) with 0%Z. rewrite Z.mul_0_r, Z.pow_0_r, Z.div_1_r, Z.mul_comm, Z.mod_add by lia. apply Z.mod_small. exact X.
  - rewrite <- (IH (fun v Hv => H v (or_intror Hv)) k) by lia. unfold slice.
    replace (lw * Z.of_nat (S k))%Z with (lw + lw * Z.of_nat k)%Z by lia.
    rewrite Z.pow_add_r, <- Z.div_div by (try apply Z.pow_pos_nonneg; try apply Z.pow_nonzero; nia).
    rewrite (Z.mul_comm (2 ^ lw) (lanes_z lw l)), Z.div_add by lia. rewrite (Z.div_small x) by exact X. reflexivity.
Qed.

(** One whole frame in memory, given the words the packer pushes. *)
Lemma frame_to_memory :
  forall p : fparam,
  (link_ok p -> forall (X : nat -> pk_in) (px : nat -> Z) lw D g, 0 <= lw -> (forall q, 0 <= px q < 2 ^ lw) -> 0 <= g ->
  forall k m, let F := (2 ^ k)%nat in p_hres p * p_vres p = Z.of_nat (F * m) ->
  (forall f t1 t2, g + 2 <= Z.of_nat f ->
   let vsync_of v := 1 + (v * (p_vscan p + 1) + p_vs_start p) * (p_hscan p + 1) in
   Z.of_nat t1 = vsync_of (Z.of_nat f - 1) + Z.of_nat D -> Z.of_nat t2 = vsync_of (Z.of_nat f) + Z.of_nat D ->
   collect (word_out F X) (t1 + 1) (t2 - t1) =
   map (fun j => (Nat.eqb j 0, rev (map (fun q => px (f * (F * m) + q)%nat) (seq (F * j) F)))) (seq 0 m)) ->
  forall n aw align mem ra d0 (i : nat -> cap_in), let dw := lw * Z.of_nat F in
  1 <= n -> Z.of_nat (length mem) = 2 ^ n -> 0 < aw ->
  (forall t, cap_pix (i t) = true -> cap_pk (i t) = X (occurrences (fun u => cap_pix (i u)) 0 t)) ->
  forall T0 x y, (T0 <= x < y)%nat ->
  let vsync_of v := 1 + (v * (p_vscan p + 1) + p_vs_start p) * (p_hscan p + 1) in
  Z.of_nat (occurrences (fun u => cap_pix (i u)) 0 T0) = vsync_of (g + 1) + Z.of_nat D + 1 ->
  (forall t, (T0 <= t <= y)%nat -> c_lost n F lw aw dw align mem ra d0 i t = false) ->
  (length (collect (c_kept n F lw aw dw align mem ra d0 i) 0 T0) <= length (collect (c_taken n F lw aw dw align mem ra d0 i) 0 x))%nat ->
  c_starts n F lw aw dw align mem ra d0 i x = true -> Z.of_nat m = size_words aw align (cap_size (i x)) ->
  occurrences (c_accepted n F lw aw dw align mem ra d0 i) (x + 1) (y - x - 1) = (m - 1)%nat ->
  c_accepted n F lw aw dw align mem ra d0 i y = true ->
  let a := word_address aw align (sl_addr (dm_slot (cap_dma (cap_run n F lw aw dw align mem ra d0 i x)))) in
  forall M, let M' := after M (collect (c_write n F lw aw dw align mem ra d0 i) (x + 1) (y - x)) in
  exists f, g + 2 <= Z.of_nat f /\
  (forall q, (q < F * m)%nat ->
     slice (lw * Z.of_nat (F - 1 - q mod F)) lw (M' ((a + Z.of_nat (q / F)) mod 2 ^ aw)) = px (f * (F * m) + q)%nat) /\
  (forall z, (forall j, (j < m)%nat -> z <> (a + Z.of_nat j) mod 2 ^ aw) -> M' z = M z))%Z.
Proof.
  intros p lk X px lw D g W PX Hg k m F HF P.
  destruct lk as [ok H1 H2 H3 H4 H5].
  intros n aw align mem ra d0 i dw N HM Haw HX T0 x y T vsync_of E0 NL OLD ST SZ CNT LAST a M M'.
  cbv zeta in P. set (g2 := Z.to_nat (g + 2)). assert (G2 : Z.of_nat g2 = (g + 2)%Z) by (unfold g2; lia).
  assert (M1 : 1 <= m). { destruct m; [|lia]. rewrite Nat.mul_0_r in HF. nia. }
  assert (VN : forall v, (0 <= v)%Z -> (0 <= vsync_of v)%Z).
  { intros v G. unfold vsync_of. pose proof (Z.mul_nonneg_nonneg v (p_vscan p + 1) G ltac:(lia)).
    pose proof (Z.mul_nonneg_nonneg (v * (p_vscan p + 1) + p_vs_start p) (p_hscan p + 1) ltac:(lia) ltac:(lia)). lia. }
  set (b := fun f => (Z.to_nat (vsync_of (Z.of_nat f + (g + 1))%Z) + D + 1)%nat).
  assert (HB : forall f, b f <= b (S f) /\ collect (word_out F X) (b f) (b (S f) - b f) =
    map (fun j => (Nat.eqb j 0, rev (map (fun q => px ((f + g2) * (F * m) + q)%nat) (seq (F * j) F)))) (seq 0 m)).
  { intros f.
    assert (LE : b f <= b (S f)).
    { unfold b. assert (vsync_of (Z.of_nat f + (g + 1)) <= vsync_of (Z.of_nat (S f) + (g + 1)))%Z.
      { unfold vsync_of. apply Z.add_le_mono_l, Z.mul_le_mono_nonneg_r; [lia|].
        apply Z.add_le_mono_r, Z.mul_le_mono_nonneg_r; lia. }
      pose proof (VN (Z.of_nat f + (g + 1))%Z ltac:(lia)). lia. }
    split; [exact LE|].
    rewrite <- (P (f + g2) (b f - 1) (b (S f) - 1)).
    - f_equal; unfold b in *; lia.
    - lia.
    - pose proof (VN (Z.of_nat f + (g + 1))%Z ltac:(lia)) as V. unfold b. replace (Z.of_nat (f + g2) - 1)%Z with (Z.of_nat f + (g + 1))%Z by lia.
      unfold vsync_of in *. lia.
    - pose proof (VN (Z.of_nat (S f) + (g + 1))%Z ltac:(lia)) as V. unfold b. replace (Z.of_nat (f + g2))%Z with (Z.of_nat (S f) + (g + 1))%Z by lia.
      unfold vsync_of in *. lia. }
  assert (B0 : occurrences (fun u => cap_pix (i u)) 0 T0 = b 0).
  { unfold b. change (Z.of_nat 0 + (g + 1))%Z with (g + 1)%Z. pose proof (VN (g + 1)%Z ltac:(lia)). lia. }
  destruct (C79_frame_in_memory n F lw aw dw align mem ra d0 i N HM Haw X b m
    (fun f j => rev (map (fun q => px ((f + g2) * (F * m) + q)%nat) (seq (F * j) F))) M1 HX HB T0 x y T B0 NL OLD ST SZ CNT LAST M)
    as (f & A1 & A2).
  exists (f + g2). split; [lia|]. split; [|exact A2].
  intros q Q. assert (F0 : F <> 0) by (apply Nat.pow_nonzero; lia).
  assert (J : q / F < m) by (apply Nat.div_lt_upper_bound; [exact F0|exact Q]).
  pose proof (Nat.mod_upper_bound q F F0) as QM. pose proof (Nat.div_mod q F F0) as DM.
  unfold M', a. rewrite (A1 (q / F) J), joined_lanes.
  set (l := rev (map (fun q => px ((f + g2) * (F * m) + q)%nat) (seq (F * (q / F)) F))).
  assert (LL : length l = F) by (unfold l; rewrite rev_length, map_length, seq_length; reflexivity).
  assert (RG : forall v, In v l -> (0 <= v < 2 ^ lw)%Z).
  { intros v V. apply in_rev in V. apply in_map_iff in V as (u & <- & _). apply PX. }
  pose proof (lanes_range lw l W RG) as LR. rewrite LL in LR. fold dw in LR. rewrite Z.mod_small by exact LR.
  rewrite (lanes_slice lw l W RG) by lia. unfold l. rewrite rev_nth by (rewrite map_length, seq_length; lia).
  rewrite map_length, seq_length. replace (F - S (F - 1 - q mod F)) with (q mod F) by lia.
  rewrite (nth_indep _ 0%Z (px ((f + g2) * (F * m) + 0)%nat)) by (rewrite map_length, seq_length; lia).
  rewrite (map_nth (fun q => px ((f + g2) * (F * m) + q)%nat)). rewrite seq_nth by lia. do 2 f_equal. lia.
Qed.

(** The whole chain: the video output sends the frame buffer words [w] over the
    three-channel link, the receiver captures frames with its DMA.  A capture of
    one frame's worth of words that starts once the words older than the fifth
    frame are gone, with no word lost since, puts one whole transmitted frame
    into memory, [F] pixels per word with the first one in the highest lane, and
    with red and blue exchanged in every pixel. *)
Theorem C79_memory_to_memory :
  forall p : fparam,
  (params_ok p -> 24 <= p_hres p -> p_hres p + 30 <= p_hscan p + 1 -> 1 <= p_vres p <= p_vscan p ->
  p_hres p < p_hs_start p -> p_vres p <= p_vs_start p < p_vs_end p ->
  forall w L Lmin raw s0, link (tx_stream p w) L Lmin raw s0 ->
  forall k m, (1 <= k)%nat -> let F := (2 ^ k)%nat in p_hres p * p_vres p = Z.of_nat (F * m) ->
  exists D, (forall k, (k < 3)%nat -> (L k / 10 + 7 < D <= L k / 10 + 15)%nat) /\
  forall n aw align mem ra d0 (i : nat -> cap_in), let dw := 32 * Z.of_nat F in
  1 <= n -> Z.of_nat (length mem) = 2 ^ n -> 0 < aw ->
  (forall t, cap_pix (i t) = true -> cap_pk (i t) = pk_stream s0 raw (occurrences (fun u => cap_pix (i u)) 0 t)) ->
  forall T0 x y, (T0 <= x < y)%nat ->
  let vsync_of g := 1 + (g * (p_vscan p + 1) + p_vs_start p) * (p_hscan p + 1) in
  Z.of_nat (occurrences (fun u => cap_pix (i u)) 0 T0) = vsync_of 3 + Z.of_nat D + 1 ->
  (forall t, (T0 <= t <= y)%nat -> c_lost n F 32 aw dw align mem ra d0 i t = false) ->
  (length (collect (c_kept n F 32 aw dw align mem ra d0 i) 0 T0) <= length (collect (c_taken n F 32 aw dw align mem ra d0 i) 0 x))%nat ->
  c_starts n F 32 aw dw align mem ra d0 i x = true -> Z.of_nat m = size_words aw align (cap_size (i x)) ->
  occurrences (c_accepted n F 32 aw dw align mem ra d0 i) (x + 1) (y - x - 1) = (m - 1)%nat ->
  c_accepted n F 32 aw dw align mem ra d0 i y = true ->
  let a := word_address aw align (sl_addr (dm_slot (cap_dma (cap_run n F 32 aw dw align mem ra d0 i x)))) in
  forall M, let M' := after M (collect (c_write n F 32 aw dw align mem ra d0 i) (x + 1) (y - x)) in
  exists f, (4 <= f)%nat /\
  (forall q, (q < F * m)%nat ->
     slice (32 * Z.of_nat (F - 1 - q mod F)) 32 (M' ((a + Z.of_nat (q / F)) mod 2 ^ aw)) = stored (w (f * (F * m) + q)%nat)) /\
  (forall z, (forall j, (j < m)%nat -> z <> (a + Z.of_nat j) mod 2 ^ aw) -> M' z = M z))%Z.
Proof.
  intros p ok H1 H2 H3 H4 H5 w L Lmin raw s0 Hl k m Hk F HF.
  assert (lk : link_ok p) by (constructor; assumption).
  destruct (link_tx p lk w L Lmin raw s0 Hl) as (D & B & P). exists D. split; [exact B|].
  pose proof (frame_words p lk w s0 raw D 2 ltac:(lia) P k m Hk HF) as W.
  intros n aw align mem ra d0 i dw N HM Haw HX T0 x y T vsync_of E0 NL OLD ST SZ CNT LAST a M M'.
  destruct (frame_to_memory p lk (pk_stream s0 raw) (fun q => stored (w q)) 32 D 2 ltac:(lia) (fun q => stored_range (w q)) ltac:(lia) k m HF W n aw align mem ra d0 i N HM Haw HX T0 x y T E0 NL OLD ST SZ CNT LAST M)
    as (f & A1 & A2). exists f. split; [lia|exact A2].
Qed.
Print Assumptions C79_memory_to_memory.

(** A concrete capture: two pixels per word, frames of two words every ten pix
    clocks; sys has an edge at two instants of three, slot 0 is loaded with byte
    address 64 and a frame is 16 bytes. *)
Definition ex_cap_pk (t : nat) : pk_in :=
  {| pki_vsync := Nat.eqb (t mod 10) 0; pki_we := (2 <=? t mod 10) && (t mod 10 <? 6); pki_px := Z.of_nat (t mod 10) |}.
Definition ex_cap_in (t : nat) : cap_in :=
  {| cap_pix := Nat.even t; cap_sys := negb (Nat.eqb (t mod 3) 0); cap_pk := ex_cap_pk (t / 2); cap_mready := Nat.eqb (t mod 5) 1;
     cap_wbusy := false; cap_size := 16;
     cap_sw := if Nat.eqb t 4 then SwAddr 0 64 else if Nat.eqb t 20 then SwStatus 0 1 else SwNone; cap_mp := 1; cap_mc := 0 |}%Z.
Definition ex_b (f : nat) : nat := 10 * f + 11.
Definition ex_words (f j : nat) : list Z := if Nat.eqb j 0 then [3; 2]%Z else [5; 4]%Z.

Example ex_cap_windows : forall f, ex_b f <= ex_b (S f) /\
  collect (word_out 2 ex_cap_pk) (ex_b f) (ex_b (S f) - ex_b f) = map (fun j => (Nat.eqb j 0, ex_words f j)) (seq 0 2).
Proof.
  assert (PER : forall f t, ex_cap_pk (10 * f + t) = ex_cap_pk t).
  { intros f t. unfold ex_cap_pk. replace (10 * f + t) with (t + f * 10) by lia. rewrite Nat.mod_add by lia. reflexivity. }
  assert (AT : forall (St In : Type) (step : St -> In -> St) (u v : nat -> In), (forall t, u t = v t) -> forall s n, at_ step s u n = at_ step s v n).
  { intros St In step u v H s n. induction n as [|n IH]; [reflexivity|]. cbn [at_]. rewrite IH, H. reflexivity. }
  assert (SH : forall (St In : Type) (step : St -> In -> St) s (u : nat -> In) a n,
    at_ step s u (a + n) = at_ step (at_ step s u a) (fun k => u (a + k)) n).
  { intros St In step s u a n. induction n as [|n IH]; [rewrite Nat.add_0_r; reflexivity|]. rewrite Nat.add_succ_r. cbn [at_]. rewrite IH. reflexivity. }
  assert (E : forall f k, pk_run 2 ex_cap_pk (10 * f + 11 + k) = at_ (pk_step 2) (pk_run 2 ex_cap_pk (10 * f + 11)) (fun k => ex_cap_pk (11 + k)) k).
  { intros f k. etransitivity; [apply SH|]. apply AT. intros t. replace (10 * f + 11 + t) with (10 * f + (11 + t)) by lia. apply PER. }
  assert (ST : forall f, pk_run 2 ex_cap_pk (10 * f + 11) = pk_run 2 ex_cap_pk 11).
  { induction f as [|f IH]; [replace (10 * 0 + 11) with 11 by lia; exact eq_refl|]. replace (10 * S f + 11) with (10 * f + 11 + 10) by lia.
    rewrite E, IH. vm_compute. reflexivity. }
  intros f. unfold ex_b. split; [lia|]. replace (10 * S f + 11 - (10 * f + 11)) with 10 by lia.
  transitivity (collect (word_out 2 ex_cap_pk) 11 10); [|vm_compute; reflexivity].
  assert (C : forall n, collect (word_out 2 ex_cap_pk) (10 * f + 11) n = collect (word_out 2 ex_cap_pk) 11 n); [|apply C].
  induction n as [|n IH]; [reflexivity|]. cbn [collect]. rewrite IH. f_equal.
  assert (EQ : pk_run 2 ex_cap_pk (10 * f + 11 + n) = pk_run 2 ex_cap_pk (11 + n)).
  { rewrite E, ST. symmetry. exact (E 0 n). }
  unfold word_out. rewrite EQ. reflexivity.
Qed.

Definition ex_cap_arg (A : Type) (g : Z -> nat -> Z -> Z -> Z -> Z -> list (bool * list Z) -> Z -> dma_st -> (nat -> cap_in) -> A) : A :=
  g 2%Z 2 32%Z 8%Z 64%Z 3%Z (repeat fe_word0 4) 0%Z (dma_init 2) ex_cap_in.
Example ex_cap_clock : forall t, cap_pix (ex_cap_in t) = true -> cap_pk (ex_cap_in t) = ex_cap_pk (occurrences (fun u => cap_pix (ex_cap_in u)) 0 t).
Proof.
  assert (H : forall t, occurrences (fun u => cap_pix (ex_cap_in u)) 0 (2 * t) = t /\ occurrences (fun u => cap_pix (ex_cap_in u)) 0 (2 * t + 1) = t + 1).
  { induction t as [|t [A B]]; [split; reflexivity|].
    assert (A' : occurrences (fun u => cap_pix (ex_cap_in u)) 0 (2 * S t) = S t).
    { replace (2 * S t) with (S (2 * t + 1)) by lia. cbn [occurrences]. rewrite B. cbn [Nat.add cap_pix ex_cap_in].
      replace (Nat.even (2 * t + 1)) with false by (rewrite Nat.even_add, Nat.even_mul; reflexivity). lia. }
    split; [exact A'|]. rewrite Nat.add_1_r. cbn [occurrences]. rewrite A'. cbn [Nat.add cap_pix ex_cap_in].
    replace (Nat.even (2 * S t)) with true by (rewrite Nat.even_mul; reflexivity). lia. }
  intros t E. cbn [cap_pix ex_cap_in] in E. apply Nat.even_spec in E as [k ->]. rewrite (proj1 (H k)). cbn [cap_pk ex_cap_in].
  rewrite Nat.mul_comm, Nat.div_mul by lia. reflexivity.
Qed.
(** The frames before pix clock 11 are discarded because no slot is loaded; the
    capture starts at instant 31 and ends at instant 46. *)
Example ex_cap_hyps : exists T0 x y, T0 <= x < y /\ occurrences (fun u => cap_pix (ex_cap_in u)) 0 T0 = ex_b 0 /\
  (forall t, T0 <= t <= y -> ex_cap_arg _ c_lost t = false) /\
  length (collect (ex_cap_arg _ c_kept) 0 T0) <= length (collect (ex_cap_arg _ c_taken) 0 x) /\
  ex_cap_arg _ c_starts x = true /\ Z.of_nat 2 = size_words 8 3 (cap_size (ex_cap_in x)) /\
  occurrences (ex_cap_arg _ c_accepted) (x + 1) (y - x - 1) = 2 - 1 /\ ex_cap_arg _ c_accepted y = true /\
  collect (ex_cap_arg _ c_write) (x + 1) (y - x) = [(8, 3 + 2 ^ 32 * 2); (9, 5 + 2 ^ 32 * 4)]%Z.
Proof.
  exists 21, 31, 46. split; [lia|]. split; [vm_compute; reflexivity|]. split.
  - intros t T. assert (A : forallb (fun k => negb (ex_cap_arg _ c_lost k)) (seq 21 26) = true) by (vm_compute; reflexivity).
    rewrite forallb_forall in A. apply negb_true_iff, A, in_seq. lia.
  - split; [apply Nat.leb_le; vm_compute; reflexivity|]. repeat (split; [vm_compute; reflexivity|]). vm_compute. reflexivity.
Qed.
