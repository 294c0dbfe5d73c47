(** C136: what a slot holds when the frame size register does not match the incoming frames. *)
From Coq Require Import ZArith List Bool Lia Arith.
From Verif Require Import Hdl Trace CdcProofs AnalysisModel FrameProps InDmaModel InDmaProofs InDmaProps FifoModel FifoProofs FifoProps
  CaptureModel CaptureProofs CaptureProps CaptureRateProofs CaptureLiveProofs CaptureLiveProps.
Import ListNotations.
Open Scope nat_scope.

(** The buffer of [s] words at word address [a], out of frames of [m] words each, starting with the first word of frame [f]. *)
Definition holds_from (aw dw lw a : Z) (s m : nat) (words : nat -> nat -> list Z) (f : nat) (M : Z -> Z) : Prop :=
  forall j, j < s -> M ((a + Z.of_nat j) mod 2 ^ aw)%Z = (joined lw (words (f + j / m)%nat (j mod m)%nat) mod 2 ^ dw)%Z.
(** Only words of frame [f]. *)
Definition holds_one_frame (aw dw lw a : Z) (s m : nat) (words : nat -> nat -> list Z) (f : nat) (M : Z -> Z) : Prop :=
  forall j, j < s -> exists k, k < m /\ M ((a + Z.of_nat j) mod 2 ^ aw)%Z = (joined lw (words f k) mod 2 ^ dw)%Z.

(** A capture of [s] words, with frames of [m] words arriving. *)
Lemma capture_of_size :
  forall n F lw aw dw align mem ra d0 (i : nat -> cap_in),
  (1 <= n)%Z -> Z.of_nat (length mem) = (2 ^ n)%Z -> (0 < aw)%Z ->
  forall (x_in : nat -> pk_in) (b : nat -> nat) m s (words : nat -> nat -> list Z), 1 <= m -> 1 <= s ->
  (forall t, cap_pix (i t) = true -> cap_pk (i t) = x_in (occurrences (fun u => cap_pix (i u)) 0 t)) ->
  (forall f, b f <= b (S f) /\
     collect (word_out F x_in) (b f) (b (S f) - b f) = map (fun j => (Nat.eqb j 0, words f j)) (seq 0 m)) ->
  forall T0 x y, T0 <= x < y -> occurrences (fun u => cap_pix (i u)) 0 T0 = b 0 ->
  (forall t, T0 <= t <= y -> c_lost n F lw aw dw align mem ra d0 i t = false) ->
  length (collect (c_kept n F lw aw dw align mem ra d0 i) 0 T0) <= length (collect (c_taken n F lw aw dw align mem ra d0 i) 0 x) ->
  c_starts n F lw aw dw align mem ra d0 i x = true -> Z.of_nat s = size_words aw align (cap_size (i x)) ->
  occurrences (c_accepted n F lw aw dw align mem ra d0 i) (x + 1) (y - x - 1) = s - 1 ->
  c_accepted n F lw aw dw align mem ra d0 i y = true ->
  let a := word_address aw align (sl_addr (dm_slot (cap_dma (cap_run n F lw aw dw align mem ra d0 i x)))) in
  forall M, let M' := after M (collect (c_write n F lw aw dw align mem ra d0 i) (x + 1) (y - x)) in
  exists f, holds_from aw dw lw a s m words f M' /\
  (forall z, (forall j, j < s -> z <> ((a + Z.of_nat j) mod 2 ^ aw)%Z) -> M' z = M z).
Proof.
  intros n F lw aw dw align mem ra d0 i N HM Haw X b m s wd M1 S1 HX HB T0 x y T HT NL OLD ST SZ CNT LAST a M M'.
  destruct (one_capture n F lw aw dw align mem ra d0 i N HM Haw x y s ltac:(lia) ST SZ S1 CNT LAST) as (L & TAG & WR). fold a in WR.
  set (R := length (collect (c_taken n F lw aw dw align mem ra d0 i) 0 x)) in *.
  set (A := length (collect (c_kept n F lw aw dw align mem ra d0 i) 0 T0)) in *.
  assert (NTH := w_nth n F lw aw dw align mem ra d0 i N X b m wd M1 HX HB T0 y HT ltac:(lia) NL). cbv zeta in NTH. fold A in NTH.
  rewrite NTH in TAG by lia. cbn [fst] in TAG. apply Nat.eqb_eq in TAG.
  set (q := R - A) in *. exists (q / m).
  assert (WR' : collect (c_write n F lw aw dw align mem ra d0 i) (x + 1) (y - x) =
    map (fun j => (((a + Z.of_nat j) mod 2 ^ aw)%Z, (joined lw (wd (q / m + j / m)%nat (j mod m)%nat) mod 2 ^ dw)%Z)) (seq 0 s)).
  { rewrite WR. apply map_ext_in. intros j J. apply in_seq in J. rewrite NTH by lia. cbn [snd]. rewrite joined_lanes. unfold trunc.
    replace (R + j - A) with (q + j) by (unfold q; lia).
    pose proof (Nat.div_mod q m ltac:(lia)) as DM. rewrite TAG, Nat.add_0_r in DM.
    replace (q + j) with (j + (q / m) * m) by lia. rewrite Nat.div_add, Nat.mod_add by lia. rewrite (Nat.add_comm (j / m)). reflexivity. }
  unfold holds_from, M'. rewrite WR'. apply after_block. intros j k J K E.
  assert (m2 : (Z.of_nat s < 2 ^ aw)%Z) by (rewrite SZ; apply Z.mod_pos_bound, Z.pow_pos_nonneg; lia).
  assert (D : ((Z.of_nat j - Z.of_nat k) mod 2 ^ aw = 0)%Z).
  { replace (Z.of_nat j - Z.of_nat k)%Z with ((a + Z.of_nat j) - (a + Z.of_nat k))%Z by lia. rewrite Zminus_mod, E, Z.sub_diag. reflexivity. }
  apply Z.mod_divide in D; [|lia]. destruct D as [c D]. assert (c = 0)%Z by nia. nia.
Qed.

(** A slot that software loads while frames of [m] words arrive, with [s] words in the frame size register: it is marked as filled some
    time later and holds the first [s] words from the start of a frame on, those of the following frames included if [s] is larger than
    [m]; nothing else is written.  If [s] is at most [m] these are words of one frame.
    Missing for the full statement (one frame whatever the size): sizes above the frame, see [C136_two_frames_refuted]. *)
Theorem C136_any_size_partial :
  forall n F lw aw dw align mem ra ns (i : nat -> cap_in), (1 <= n)%Z -> Z.of_nat (length mem) = (2 ^ n)%Z -> (0 < aw)%Z ->
  forall K E B (x_in : nat -> pk_in),
  (forall t, cap_pix (i t) = true -> cap_pk (i t) = x_in (occurrences (fun u => cap_pix (i u)) 0 t)) ->
  runs_bounded (fun t => cap_sys (i t)) (fun t => negb (cap_mready (i t))) K ->
  runs_bounded (fun t => cap_sys (i t))
    (fun t => cap_wbusy (i t) && match c_write n F lw aw dw align mem ra (dma_init ns) i t with None => true | Some _ => false end) E ->
  slow_enough F x_in (fun t => cap_pix (i t)) (fun t => cap_sys (i t)) K E B ->
  B + E + K + 5 < (K + 1) * (2 ^ Z.to_nat n - 2) ->
  keeps_running (fun t => cap_sys (i t)) -> keeps_running (fun t => cap_pix (i t)) ->
  forall b m s words, 1 <= m -> 1 <= s ->
  (forall f, b f <= b (S f) /\
     collect (word_out F x_in) (b f) (b (S f) - b f) = map (fun j => (Nat.eqb j 0, words f j)) (seq 0 m)) ->
  forall T0, occurrences (fun u => cap_pix (i u)) 0 T0 = b 0 ->
  forall w c, T0 <= w -> B + 2 * (E + K) + 10 <= occurrences (fun t => cap_sys (i t)) T0 (w - T0) ->
  loads n F lw aw dw align mem ra ns i w c ->
  (forall t, w < t -> Z.of_nat s = size_words aw align (cap_size (i t))) ->
  let a := word_address aw align (slot_address n F lw aw dw align mem ra ns i w c) in
  exists z, w < z /\ slot_status n F lw aw dw align mem ra ns i z c = 2%Z /\
  forall M, let M' := after M (collect (c_write n F lw aw dw align mem ra (dma_init ns) i) w (z - w)) in
  exists f, holds_from aw dw lw a s m words f M' /\ (s <= m -> holds_one_frame aw dw lw a s m words f M') /\
  (forall v, (forall j, j < s -> v <> ((a + Z.of_nat j) mod 2 ^ aw)%Z) -> M' v = M v).
Proof.
  intros n F lw aw dw align mem ra ns i N HM Haw K E B X HX H1 H2 H3 HD Hsys Hpix b m s words M1 S1 HB T0 HT w c TW HW LD SZ a.
  destruct LD as [LC LE LW LQ LI LM].
  set (kp := c_kept n F lw aw dw align mem ra (dma_init ns) i). set (tk := c_taken n F lw aw dw align mem ra (dma_init ns) i).
  pose proof (lv_mem i K H1) as HM1. pose proof (lv_drain n F lw aw dw align mem ra (dma_init ns) i E H2) as HD1.
  assert (OLD : length (collect kp 0 T0) <= length (collect tk 0 w)).
  { apply (taken_by n F lw aw dw align mem ra (dma_init ns) i N HM K E HM1 HD1 (B + E + K + 5) T0 w TW).
    - apply (lv_backlog n F lw aw dw align mem ra (dma_init ns) i N HM K E B X HX H1 H2 H3); assumption.
    - change (c_sys i) with (fun t => cap_sys (i t)). lia. }
  destruct (loaded n F lw aw dw align mem ra ns i w c (slot_address n F lw aw dw align mem ra ns i w c) Hsys LE LW LQ LI LC) as (x0 & X0 & G1 & G2 & G3 & G4).
  { intros j J. unfold sl_loaded. destruct (LM j J) as [G|G]; unfold slot_status in G; rewrite G; reflexivity. }
  { reflexivity. }
  destruct (capture n F lw aw dw align mem ra (dma_init ns) i N HM K E HM1 HD1 Hsys) with (x0 := x0) (c := c) (m := s)
    as (x & y & z & XY & YZ & ST & CNT & LAST & AD & SS & WR & _); try assumption.
  { apply (lv_sof n F lw aw dw align mem ra (dma_init ns) i N HM K E B X HX H1 H2 H3 HD b m words M1 HB T0 HT Hpix). }
  { intros t T _ _. rewrite LQ by lia. exact I. }
  { rewrite slots_count. exact LC. }
  { rewrite G3. reflexivity. }
  { intros t T. apply SZ. lia. }
  exists (S z). split; [lia|]. split; [exact SS|]. intros M M'.
  assert (WR2 : collect (c_write n F lw aw dw align mem ra (dma_init ns) i) w (S z - w) =
    collect (c_write n F lw aw dw align mem ra (dma_init ns) i) (x + 1) (y - x)).
  { rewrite <- WR. replace (S z - w) with ((x0 - w) + (S z - x0)) by lia. rewrite collect_app. replace (w + (x0 - w)) with x0 by lia.
    set (wr := c_write n F lw aw dw align mem ra (dma_init ns) i).
    assert (NONE : forall len, w + len <= x0 -> collect wr w len = []).
    { induction len as [|len IH]; intros L; [reflexivity|]. cbn [collect]. rewrite IH by lia.
      unfold wr, c_write, dm_write. rewrite G4 by lia. destruct (c_sys i (w + len)); reflexivity. }
    rewrite NONE by lia. reflexivity. }
  destruct (capture_of_size n F lw aw dw align mem ra (dma_init ns) i N HM Haw X b m s words M1 S1 HX HB T0 x y ltac:(lia) HT) with (M := M)
    as (f & HF & HO); try assumption.
  { intros t T. apply (lv_no_loss n F lw aw dw align mem ra (dma_init ns) i N HM K E B X HX H1 H2 H3 HD). }
  { etransitivity; [exact OLD|]. unfold tk. replace x with (w + (x - w)) by lia. rewrite collect_app, app_length. lia. }
  { apply SZ. lia. }
  exists f. unfold M'. rewrite WR2. unfold a. replace (slot_address n F lw aw dw align mem ra ns i w c) with
    (sl_addr (dm_slot (cap_dma (cap_run n F lw aw dw align mem ra (dma_init ns) i x)))) by (rewrite AD, G3; reflexivity).
  split; [exact HF|]. split; [|exact HO]. intros SM j J. exists j. split; [lia|]. rewrite (HF j J).
  rewrite Nat.div_small, Nat.mod_small, Nat.add_0_r by lia. reflexivity.
Qed.
Print Assumptions C136_any_size_partial.

(** The run of C95's example with pictures that differ from frame to frame (pixels 12..15 and 2..5 in turns), frames of two words, and
    three words in the frame size register. *)
Definition ex_size_pk (t : nat) : pk_in :=
  {| pki_vsync := Nat.eqb (t mod 10) 0; pki_we := (2 <=? t mod 10) && (t mod 10 <? 6); pki_px := Z.of_nat (t mod 20) |}.
Definition ex_size_in (t : nat) : cap_in :=
  {| cap_pix := Nat.eqb (t mod 4) 0; cap_sys := true; cap_pk := ex_size_pk (t / 4); cap_mready := Nat.odd t;
     cap_wbusy := false; cap_size := 24;
     cap_sw := if Nat.eqb t 4 then SwAddr 0 64 else if Nat.eqb t 60 then SwStatus 0 1 else SwNone; cap_mp := 1; cap_mc := 0 |}%Z.
Definition ex_size_words (f j : nat) : list Z :=
  let p := if Nat.even f then 10%Z else 0%Z in if Nat.eqb j 0 then [p + 3; p + 2]%Z else [p + 5; p + 4]%Z.
Definition ex_size_arg (A : Type) (g : Z -> nat -> Z -> Z -> Z -> Z -> list (bool * list Z) -> Z -> nat -> (nat -> cap_in) -> A) : A :=
  g 4%Z 2 32%Z 8%Z 64%Z 3%Z (repeat fe_word0 16) 0%Z 2 ex_size_in.

Example ex_size_windows : forall f, ex_b f <= ex_b (S f) /\
  collect (word_out 2 ex_size_pk) (ex_b f) (ex_b (S f) - ex_b f) = map (fun j => (Nat.eqb j 0, ex_size_words f j)) (seq 0 2).
Proof.
  assert (PER : forall g t, ex_size_pk (20 * g + t) = ex_size_pk t).
  { intros g t. unfold ex_size_pk. replace (20 * g + t) with (t + (2 * g) * 10) at 1 2 3 by lia. rewrite Nat.mod_add by lia.
    replace (20 * g + t) with (t + g * 20) by lia. rewrite Nat.mod_add by lia. reflexivity. }
  assert (AT : forall (St In : Type) (step : St -> In -> St) (u v : nat -> In), (forall t, u t = v t) -> forall s n, at_ step s u n = at_ step s v n).
  { intros St In step u v H s n. induction n as [|n IH]; [reflexivity|]. cbn [at_]. rewrite IH, H. reflexivity. }
  assert (SH : forall (St In : Type) (step : St -> In -> St) s (u : nat -> In) a n,
    at_ step s u (a + n) = at_ step (at_ step s u a) (fun k => u (a + k)) n).
  { intros St In step s u a n. induction n as [|n IH]; [rewrite Nat.add_0_r; reflexivity|]. rewrite Nat.add_succ_r. cbn [at_]. rewrite IH. reflexivity. }
  assert (E : forall g k, pk_run 2 ex_size_pk (20 * g + 11 + k) = at_ (pk_step 2) (pk_run 2 ex_size_pk (20 * g + 11)) (fun k => ex_size_pk (11 + k)) k).
  { intros g k. etransitivity; [apply SH|]. apply AT. intros t. replace (20 * g + 11 + t) with (20 * g + (11 + t)) by lia. apply PER. }
  assert (ST1 : pk_run 2 ex_size_pk 51 = pk_run 2 ex_size_pk 31) by (vm_compute; reflexivity).
  assert (ST : forall g, pk_run 2 ex_size_pk (20 * S g + 11) = pk_run 2 ex_size_pk 31).
  { induction g as [|g IH]; [reflexivity|]. replace (20 * S (S g) + 11) with (20 * S g + 11 + 20) by lia.
    rewrite E, IH. change (pk_run 2 ex_size_pk 31) with (pk_run 2 ex_size_pk (20 * 1 + 11)). rewrite <- (E 1 20). exact ST1. }
  assert (C : forall g a n, collect (word_out 2 ex_size_pk) (20 * S g + 11 + a) n = collect (word_out 2 ex_size_pk) (31 + a) n).
  { intros g a n. induction n as [|n IH]; [reflexivity|]. cbn [collect]. rewrite IH. f_equal.
    assert (EQ : pk_run 2 ex_size_pk (20 * S g + 11 + a + n) = pk_run 2 ex_size_pk (31 + a + n)).
    { rewrite <- !Nat.add_assoc. rewrite (Nat.add_assoc (20 * S g)). rewrite E, ST. change 31 with (20 * 1 + 11) at 2. rewrite E. reflexivity. }
    unfold word_out. rewrite EQ. reflexivity. }
  intros f. unfold ex_b. split; [lia|]. replace (10 * S f + 11 - (10 * f + 11)) with 10 by lia.
  destruct (Nat.Even_or_Odd f) as [[g ->]|[g ->]].
  - unfold ex_size_words. rewrite Nat.even_mul. cbn [Nat.even orb]. destruct g as [|g]; [vm_compute; reflexivity|].
    replace (10 * (2 * S g) + 11) with (20 * S g + 11 + 0) by lia. rewrite C. vm_compute. reflexivity.
  - unfold ex_size_words. rewrite Nat.even_add, Nat.even_mul. cbn [Nat.even orb Bool.eqb]. destruct g as [|g]; [vm_compute; reflexivity|].
    replace (10 * (2 * S g + 1) + 11) with (20 * S g + 11 + 10) by lia. rewrite C. vm_compute. reflexivity.
Qed.

(** The slot is filled at some instant, and then holds a whole frame and the first word of the next one. *)
Definition ex_size_written (k : nat) : list (Z * Z) :=
  ex_size_arg _ (fun n F lw aw dw align mem ra ns i => collect (c_write n F lw aw dw align mem ra (dma_init ns) i)) 60 k.
Definition ex_size_list : list (Z * Z) :=
  map (fun p : Z * (Z * Z) => (fst p, fst (snd p) + 2 ^ 32 * snd (snd p)))%Z [(8, (3, 2)); (9, (5, 4)); (10, (13, 12))]%Z.
Lemma ex_size_list_ok : ex_size_written 81 = ex_size_list.
Proof. vm_compute. reflexivity. Qed.
Theorem C136_two_frames_refuted : exists z, 60 < z /\
  ex_size_arg _ slot_status z 0 = 2%Z /\ (forall t, 60 < t < z -> ex_size_arg _ slot_status t 0 = 1%Z) /\
  size_words 8 3 24 = 3%Z /\ word_address 8 3 (ex_size_arg _ slot_address 60 0) = 8%Z /\
  forall M, let M' := after M (ex_size_written (z - 60)) in
  holds_from 8 64 32 8 3 2 ex_size_words 1 M' /\ forall f, ~ holds_one_frame 8 64 32 8 3 2 ex_size_words f M'.
Proof.
  exists 141. split; [lia|]. split; [vm_compute; reflexivity|]. split.
  { assert (A : forallb (fun t => Z.eqb (ex_size_arg _ slot_status t 0) 1) (seq 61 80) = true) by (vm_compute; reflexivity).
    rewrite forallb_forall in A. intros t T. apply Z.eqb_eq, A, in_seq. lia. }
  split; [reflexivity|]. split; [vm_compute; reflexivity|]. intros M M'. unfold M'. clear M'. change (141 - 60) with 81. rewrite ex_size_list_ok.
  assert (V : forall z, after M ex_size_list z = if (z =? 10)%Z then (13 + 2 ^ 32 * 12)%Z else if (z =? 9)%Z then (5 + 2 ^ 32 * 4)%Z
    else if (z =? 8)%Z then (3 + 2 ^ 32 * 2)%Z else M z) by (intros z; reflexivity).
  split.
  - intros j J. rewrite V. destruct j as [|[|[|j]]]; [reflexivity..|lia].
  - intros f H. destruct (H 0 ltac:(lia)) as (k & K & H0). destruct (H 2 ltac:(lia)) as (l & L & H2). clear H. rewrite V in H0, H2.
    change ((8 + Z.of_nat 0) mod 2 ^ 8)%Z with 8%Z in H0. change ((8 + Z.of_nat 2) mod 2 ^ 8)%Z with 10%Z in H2.
    cbn [Z.eqb Pos.eqb] in H0, H2. unfold ex_size_words in H0, H2.
    destruct k as [|[|k]]; [| |lia]; (destruct l as [|[|l]]; [| |lia]); destruct (Nat.even f); cbn [Nat.eqb] in H0, H2; discriminate.
Qed.
Print Assumptions C136_two_frames_refuted.

(** That run meets all the hypotheses of [C136_any_size_partial]. *)
Example ex_size_hyps : exists z, 60 < z /\ ex_size_arg _ slot_status z 0 = 2%Z.
Proof.
  destruct (C136_any_size_partial 4 2 32 8 64 3 (repeat fe_word0 16) 0 2 ex_size_in ltac:(lia) eq_refl ltac:(lia) 1 0 6 ex_size_pk)
    with (b := ex_b) (m := 2) (s := 3) (words := ex_size_words) (T0 := 41) (w := 60) (c := 0) as (z & W & S & _).
  - intros t H. change (cap_pix (ex_live_in t) = true) in H. pose proof (ex_live_pix 0 t) as Q. rewrite (ex_mod (0 + t)) in Q. cbn [Nat.add] in Q.
    cbn [cap_pix ex_live_in] in H. rewrite H in Q. apply Nat.eqb_eq in H. pose proof (Nat.div_mod t 4 ltac:(lia)) as D.
    cbn [cap_pk ex_size_in]. f_equal. change (3 mod 4) with 3 in Q. cbn [cap_pix ex_live_in ex_size_in] in Q |- *. lia.
  - exact ex_live_mem.
  - intros u t UT H. change (occurrences (fun t => cap_sys (ex_live_in t)) u (t - u) <= 0). rewrite ex_live_sys.
    destruct (Nat.le_gt_cases (t - u) 0) as [L|L]; [exact L|]. exfalso. specialize (H u ltac:(lia) eq_refl). discriminate.
  - change 2 with (2 ^ 1) at 1. change 6 with (4 / 2 ^ 1 + (1 + 0 + 3)). apply clocks_slow_enough; [lia|]. intros a b _.
    pose proof (ex_live_sys a (b - a)) as QS. pose proof (ex_live_pix a (b - a)) as QP.
    cbn [cap_sys cap_pix ex_live_in ex_size_in] in QS, QP |- *. rewrite QS. pose proof (Nat.mod_upper_bound (a + 3) 4 ltac:(lia)).
    change (2 ^ 1) with 2. lia.
  - apply Nat.ltb_lt; vm_compute; reflexivity.
  - exact (proj1 ex_live_running).
  - exact (proj2 ex_live_running).
  - lia.
  - lia.
  - exact ex_size_windows.
  - vm_compute; reflexivity.
  - lia.
  - change (6 + 2 * (0 + 1) + 10 <= occurrences (fun t => cap_sys (ex_live_in t)) 41 (60 - 41)). rewrite ex_live_sys. lia.
  - destruct (idle_at_first 4%Z 2 32%Z 8%Z 64%Z 3%Z (repeat fe_word0 16) 0%Z 2 ex_size_in 60) as [A B].
    { intros t j v T. cbn [cap_sw ex_size_in]. destruct (Nat.eqb t 4); [discriminate|]. destruct (Nat.eqb_spec t 60); [lia|discriminate]. }
    constructor; try assumption.
    + lia.
    + reflexivity.
    + reflexivity.
    + intros t T. cbn [cap_sw ex_size_in]. destruct (Nat.eqb_spec t 4); [lia|]. destruct (Nat.eqb_spec t 60); [lia|reflexivity].
    + intros j _. left. apply B.
  - intros t _. vm_compute. reflexivity.
  - exists z. split; [exact W|exact S].
Qed.
