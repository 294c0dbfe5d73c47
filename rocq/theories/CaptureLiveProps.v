(** Theorems for C94 and C95: the memory side of the receiver loses no word when the
    memory keeps up, and a slot loaded by software gets one whole frame. *)
From Coq Require Import ZArith List Bool Lia Arith.
From Verif Require Import Hdl Trace CdcProofs AnalysisModel FrameProofs FrameProps InDmaModel InDmaProofs InDmaProps FifoModel FifoProofs FifoProps
  CaptureModel CaptureProofs CaptureProps CaptureRateProofs CaptureLiveProofs.
Import ListNotations.
Open Scope nat_scope.

(** Never more than [k] edges of [e] in a row at all of which [p] holds. *)
Definition runs_bounded (e p : nat -> bool) (k : nat) : Prop :=
  forall u t, u <= t -> (forall v, u <= v < t -> e v = true -> p v = true) -> occurrences e u (t - u) <= k.
(** The clock [e] does not stop. *)
Definition keeps_running (e : nat -> bool) : Prop := forall u k, exists t, u <= t /\ k <= occurrences e u (t - u).
(** Clocks the memory needs at worst for the words [ws]: [K] pauses and the word
    itself, and [E] clocks of draining plus two between frames. *)
Definition needed (K E : nat) (ws : list (bool * list Z)) : nat :=
  length ws * (K + 1) + length (filter fst ws) * (E + 2).
(** The words of the packer fed with [X] come slowly enough, up to a burst of [B]
    clocks. *)
Definition slow_enough (F : nat) (X : nat -> pk_in) (pix sys : nat -> bool) (K E B : nat) : Prop :=
  forall a b, a <= b -> needed K E (collect (word_out F X) (occurrences pix 0 a) (occurrences pix a (b - a))) <= occurrences sys a (b - a) + B.

Lemma needed_cost : forall K E ws, list_sum (map (word_cost K E) ws) = needed K E ws.
Proof.
  intros K E ws. unfold needed. induction ws as [|w ws IH]; [reflexivity|]. cbn [map list_sum fold_right length filter]. unfold list_sum in IH.
  rewrite IH. unfold word_cost. destruct (fst w); cbn [length]; lia.
Qed.

Section Live.
Variables (n : Z) (F : nat) (lw aw dw align : Z) (mem : list (bool * list Z)) (ra : Z) (d0 : dma_st) (i : nat -> cap_in).
Hypothesis N : (1 <= n)%Z.
Hypothesis HM : Z.of_nat (length mem) = (2 ^ n)%Z.
Variables (K E B : nat) (X : nat -> pk_in).
Hypothesis HX : forall t, cap_pix (i t) = true -> cap_pk (i t) = X (occurrences (fun u => cap_pix (i u)) 0 t).
Hypothesis Hmem : runs_bounded (fun t => cap_sys (i t)) (fun t => negb (cap_mready (i t))) K.
Hypothesis Hdrain : runs_bounded (fun t => cap_sys (i t))
  (fun t => cap_wbusy (i t) && match c_write n F lw aw dw align mem ra d0 i t with None => true | Some _ => false end) E.
Hypothesis Hslow : slow_enough F X (fun t => cap_pix (i t)) (fun t => cap_sys (i t)) K E B.
Hypothesis Hdepth : B + E + K + 5 < (K + 1) * (2 ^ Z.to_nat n - 2).

Lemma lv_mem : forall u t, u <= t -> (forall v, u <= v < t -> c_sys i v = true -> cap_mready (i v) = false) -> occurrences (c_sys i) u (t - u) <= K.
Proof. intros u t UT H. apply Hmem; [exact UT|]. intros v V Q. rewrite (H v V Q). reflexivity. Qed.
Lemma lv_drain : forall u t, u <= t ->
  (forall v, u <= v < t -> c_sys i v = true -> dm_fsm (cap_dma (cap_run n F lw aw dw align mem ra d0 i v)) = EOF /\ cap_wbusy (i v) = true) ->
  occurrences (c_sys i) u (t - u) <= E.
Proof.
  intros u t UT H. apply Hdrain; [exact UT|]. intros v V Q. destruct (H v V Q) as [A ->]. unfold c_write, dm_write. rewrite A.
  destruct (c_sys i v); reflexivity.
Qed.
Lemma lv_rate : forall a b, 0 <= a <= b -> cost K E (pushed n F mem ra (c_fin n F lw aw dw align mem ra d0 i)) a (b - a) <= occurrences (c_sys i) a (b - a) + B.
Proof.
  intros a b AB. unfold cost.
  assert (G : collect (pushed n F mem ra (c_fin n F lw aw dw align mem ra d0 i)) a (b - a) =
    collect (word_out F X) (occurrences (c_pix i) 0 a) (occurrences (c_pix i) a (b - a))).
  { apply collect_gated. intros t T. unfold pushed. rewrite (w_pk n F lw aw dw align mem ra d0 i X HX). reflexivity. }
  rewrite G, needed_cost. apply (Hslow a b). lia.
Qed.

Lemma lv_no_loss : forall t, c_lost n F lw aw dw align mem ra d0 i t = false.
Proof.
  intros t. destruct (Nat.lt_ge_cases (occurrences (c_pix i) 0 t) 2) as [L|L].
  - apply no_loss_at_start; assumption.
  - apply (no_loss_from n F lw aw dw align mem ra d0 i N HM K E B lv_mem lv_drain 0 0 lv_rate); [cbn; lia|lia|lia|].
    rewrite Nat.sub_0_r. exact L.
Qed.

Lemma lv_backlog : forall t, cost K E (c_kept n F lw aw dw align mem ra d0 i) 0 t <= cost K E (c_taken n F lw aw dw align mem ra d0 i) 0 t + (B + E + K + 5).
Proof.
  intros t. pose proof (waiting n F lw aw dw align mem ra d0 i N HM K E B lv_mem lv_drain 0 0 lv_rate ltac:(cbn; lia) t ltac:(lia)). lia.
Qed.

(** Frames of [m] words from pix clock [b 0] on. *)
Variables (b : nat -> nat) (m : nat) (words : nat -> nat -> list Z).
Hypothesis M1 : 1 <= m.
Hypothesis HB : forall f, b f <= b (S f) /\
  collect (word_out F X) (b f) (b (S f) - b f) = map (fun j => (Nat.eqb j 0, words f j)) (seq 0 m).
Variable T0 : nat.
Hypothesis HT0 : occurrences (fun u => cap_pix (i u)) 0 T0 = b 0.
Hypothesis Hsys : keeps_running (fun t => cap_sys (i t)).
Hypothesis Hpix : keeps_running (fun t => cap_pix (i t)).

Lemma lv_sof : forall R, exists v R', R <= R' < length (collect (c_kept n F lw aw dw align mem ra d0 i) 0 v) /\
  fst (nth R' (collect (c_kept n F lw aw dw align mem ra d0 i) 0 v) fe_word0) = true.
Proof.
  intros R. set (KP := c_kept n F lw aw dw align mem ra d0 i). set (A := length (collect KP 0 T0)).
  destruct (Hpix T0 (b (S R))) as (v & V & O). exists (S v), (A + m * R).
  assert (L : A + m * R < length (collect KP 0 (S v))).
  { replace (S v) with (T0 + (S v - T0)) by lia. rewrite collect_app, app_length. fold A. rewrite Nat.add_0_l.
    pose proof (w_kept n F lw aw dw align mem ra d0 i N X b m M1 HX T0 v HT0 ltac:(lia) (fun t _ => lv_no_loss t) (S v - T0) ltac:(lia)) as Q.
    fold KP in Q. rewrite Q.
    destruct (w_windows n F mem i N X b m words M1 HB T0 v HT0 V (S R)) as [G W].
    assert (LE : b (S R) - b 0 <= occurrences (c_pix i) T0 (S v - T0)).
    { change (c_pix i) with (fun t => cap_pix (i t)). replace (S v - T0) with (S (v - T0)) by lia. cbn [occurrences]. lia. }
    replace (occurrences (c_pix i) T0 (S v - T0)) with ((b (S R) - b 0) + (occurrences (c_pix i) T0 (S v - T0) - (b (S R) - b 0))) by lia.
    rewrite collect_app, app_length, W.
    rewrite (concat_windows_length _ (fun f => map (fun j => (Nat.eqb j 0, words f j)) (seq 0 m)) m); [lia|].
    intros f. rewrite map_length, seq_length. reflexivity. }
  split; [split; [nia|exact L]|].
  pose proof (w_nth n F lw aw dw align mem ra d0 i N X b m words M1 HX HB T0 v HT0 ltac:(lia) (fun t _ => lv_no_loss t) (A + m * R)) as Q.
  cbv zeta in Q. fold KP in Q. fold A in Q. rewrite Q by (lia || exact L). cbn [fst].
  replace (A + m * R - A) with (R * m) by lia. rewrite Nat.mod_mul by lia. reflexivity.
Qed.
End Live.

(** A run from reset with [ns] slots. *)
Section Slots.
Variables (n : Z) (F : nat) (lw aw dw align : Z) (mem : list (bool * list Z)) (ra : Z) (ns : nat) (i : nat -> cap_in).
Let run (t : nat) : cap_st := cap_run n F lw aw dw align mem ra (dma_init ns) i t.

(** Status and address register of slot [j] at instant [t]; no capture going on. *)
Definition slot_status (t j : nat) : Z := sl_status (nth j (dm_slots (cap_dma (cap_run n F lw aw dw align mem ra (dma_init ns) i t))) slot0).
Definition slot_address (t j : nat) : Z := sl_addr (nth j (dm_slots (cap_dma (cap_run n F lw aw dw align mem ra (dma_init ns) i t))) slot0).
Definition dma_idle (t : nat) : Prop := dm_fsm (cap_dma (cap_run n F lw aw dw align mem ra (dma_init ns) i t)) = WAIT_SOF.

(** Software loads slot [c] at instant [w] and then leaves the registers alone:
    no slot is loaded and no capture is going on at that time. *)
Record loads (w c : nat) : Prop := {
  ld_slot : c < ns;
  ld_edge : cap_sys (i w) = true;
  ld_write : cap_sw (i w) = SwStatus c 1;
  ld_quiet : forall t, w < t -> cap_sw (i t) = SwNone;
  ld_idle : dma_idle w;
  ld_empty : forall j, j < ns -> slot_status w j = 0%Z \/ slot_status w j = 2%Z
}.

(** From reset on, as long as software writes no status register, this is so. *)
Lemma idle_at_first : forall w, (forall t j v, t < w -> cap_sw (i t) <> SwStatus j v) ->
  dma_idle w /\ forall j, slot_status w j = 0%Z.
Proof.
  unfold dma_idle, slot_status. fold run. induction w as [|w IH]; intros H.
  - split; [reflexivity|]. intros j. cbn [run cap_run at_ cap_dma dma_init dm_slots].
    destruct (nth_in_or_default j (repeat slot0 ns) slot0) as [G | ->]; [|reflexivity]. apply repeat_spec in G. rewrite G. reflexivity.
  - destruct IH as [A B]; [intros; apply H; lia|].
    change (cap_run n F lw aw dw align mem ra (dma_init ns) i w) with (run w) in A, B. change (cap_run n F lw aw dw align mem ra (dma_init ns) i (S w)) with (run (S w)).
    assert (AV : dm_av (cap_dma (run w)) = false) by (unfold dm_av, dm_slot, sl_loaded; rewrite B; reflexivity).
    change (run (S w)) with (cap_step n F lw aw dw align (run w) (i w)). unfold cap_step; cbn [cap_dma].
    destruct (cap_sys (i w)); [|split; [exact A|exact B]]. unfold dma_step; cbn [dm_fsm dm_slots]. rewrite A. unfold dm_start, dm_done. rewrite A, AV.
    split; [reflexivity|]. intros j. destruct (Nat.lt_ge_cases j (length (dm_slots (cap_dma (run w))))) as [J|J].
    + rewrite slots_nth by exact J. cbn [andb]. unfold slot_step. cbn [cap_dma_in dmi_sw]. specialize (H w). destruct (cap_sw (i w)) as [|k v|k v]; [apply B| |].
      * exfalso. apply (H k v); [lia|reflexivity].
      * destruct (Nat.eqb k _); cbn [sl_status]; apply B.
    + rewrite nth_overflow by (rewrite slots_length; exact J). reflexivity.
Qed.
End Slots.

(** No word is lost between the pixel clock and the memory if
    - the memory takes a word at least once in [K + 1] sys clocks,
    - it has written everything [E] sys clocks after the last word,
    - the words come slowly enough, bursts included,
    - the FIFO is deep enough for the bursts. *)
Theorem C94_no_loss :
  forall n F lw aw dw align mem ra d0 (i : nat -> cap_in), (1 <= n)%Z -> Z.of_nat (length mem) = (2 ^ n)%Z ->
  forall K E B (x_in : nat -> pk_in),
  (forall t, cap_pix (i t) = true -> cap_pk (i t) = x_in (occurrences (fun u => cap_pix (i u)) 0 t)) ->
  runs_bounded (fun t => cap_sys (i t)) (fun t => negb (cap_mready (i t))) K ->
  runs_bounded (fun t => cap_sys (i t))
    (fun t => cap_wbusy (i t) && match c_write n F lw aw dw align mem ra d0 i t with None => true | Some _ => false end) E ->
  slow_enough F x_in (fun t => cap_pix (i t)) (fun t => cap_sys (i t)) K E B ->
  B + E + K + 5 < (K + 1) * (2 ^ Z.to_nat n - 2) ->
  forall t, c_lost n F lw aw dw align mem ra d0 i t = false.
Proof. intros. eapply lv_no_loss; eassumption. Qed.
Print Assumptions C94_no_loss.

(** Whatever the stream: if sys is fast enough compared with pix. *)
Lemma clocks_slow_enough : forall k X pix sys K E c, 1 <= k ->
  (forall a b, a <= b -> (K + E + 3) * occurrences pix a (b - a) <= 2 ^ k * occurrences sys a (b - a) + c) ->
  slow_enough (2 ^ k) X pix sys K E (c / 2 ^ k + (K + E + 3)).
Proof.
  intros k X pix sys K E c K1 H a b AB. specialize (H a b AB). pose proof (pack_rate k X K1 (occurrences pix 0 a) (occurrences pix a (b - a))) as R.
  rewrite <- needed_cost. set (ws := collect (word_out (2 ^ k) X) (occurrences pix 0 a) (occurrences pix a (b - a))) in *.
  pose proof (sum_bounds K E ws) as [_ U]. pose proof (F_two k K1) as FT. set (P := 2 ^ k) in *. set (L := occurrences pix a (b - a)) in *.
  set (Y := occurrences sys a (b - a)) in *. set (len := length ws) in *. set (C := K + E + 3) in *.
  assert (Q : P * (len * C) <= P * (Y + C) + c) by nia.
  assert (D : len * C <= Y + C + c / P).
  { destruct (Nat.le_gt_cases (len * C) (Y + C)) as [G|G]; [lia|].
    assert (len * C - (Y + C) <= c / P); [|lia]. apply Nat.div_le_lower_bound; [lia|]. nia. }
  lia.
Qed.
Theorem C94_no_loss_clocks :
  forall k n lw aw dw align mem ra d0 (i : nat -> cap_in), 1 <= k -> (1 <= n)%Z -> Z.of_nat (length mem) = (2 ^ n)%Z ->
  forall K E c (x_in : nat -> pk_in),
  (forall t, cap_pix (i t) = true -> cap_pk (i t) = x_in (occurrences (fun u => cap_pix (i u)) 0 t)) ->
  runs_bounded (fun t => cap_sys (i t)) (fun t => negb (cap_mready (i t))) K ->
  runs_bounded (fun t => cap_sys (i t))
    (fun t => cap_wbusy (i t) && match c_write n (2 ^ k) lw aw dw align mem ra d0 i t with None => true | Some _ => false end) E ->
  (forall a b, a <= b ->
     (K + E + 3) * occurrences (fun t => cap_pix (i t)) a (b - a) <= 2 ^ k * occurrences (fun t => cap_sys (i t)) a (b - a) + c) ->
  c / 2 ^ k + 2 * (K + E) + 8 < (K + 1) * (2 ^ Z.to_nat n - 2) ->
  forall t, c_lost n (2 ^ k) lw aw dw align mem ra d0 i t = false.
Proof.
  intros k n lw aw dw align mem ra d0 i K1 N HM K E c X HX H1 H2 H3 HD.
  apply (C94_no_loss n (2 ^ k) lw aw dw align mem ra d0 i N HM K E (c / 2 ^ k + (K + E + 3)) X HX H1 H2); [|lia].
  apply clocks_slow_enough; assumption.
Qed.
Print Assumptions C94_no_loss_clocks.

(** What happens after a slot has been loaded. *)
Lemma capture_after_load :
  forall n F lw aw dw align mem ra ns (i : nat -> cap_in), (1 <= n)%Z -> Z.of_nat (length mem) = (2 ^ n)%Z -> (0 < aw)%Z ->
  forall K E B (x_in : nat -> pk_in),
  (forall t, cap_pix (i t) = true -> cap_pk (i t) = x_in (occurrences (fun u => cap_pix (i u)) 0 t)) ->
  runs_bounded (fun t => cap_sys (i t)) (fun t => negb (cap_mready (i t))) K ->
  runs_bounded (fun t => cap_sys (i t))
    (fun t => cap_wbusy (i t) && match c_write n F lw aw dw align mem ra (dma_init ns) i t with None => true | Some _ => false end) E ->
  slow_enough F x_in (fun t => cap_pix (i t)) (fun t => cap_sys (i t)) K E B ->
  B + E + K + 5 < (K + 1) * (2 ^ Z.to_nat n - 2) ->
  keeps_running (fun t => cap_sys (i t)) -> keeps_running (fun t => cap_pix (i t)) ->
  forall b m words, 1 <= m ->
  (forall f, b f <= b (S f) /\
     collect (word_out F x_in) (b f) (b (S f) - b f) = map (fun j => (Nat.eqb j 0, words f j)) (seq 0 m)) ->
  forall T0, occurrences (fun u => cap_pix (i u)) 0 T0 = b 0 ->
  forall w c, T0 <= w -> B + 2 * (E + K) + 10 <= occurrences (fun t => cap_sys (i t)) T0 (w - T0) ->
  loads n F lw aw dw align mem ra ns i w c ->
  (forall t, w < t -> Z.of_nat m = size_words aw align (cap_size (i t))) ->
  exists x y z, (T0 <= x < y /\ w < x) /\ y < z /\
  length (collect (c_kept n F lw aw dw align mem ra (dma_init ns) i) 0 T0) <= length (collect (c_taken n F lw aw dw align mem ra (dma_init ns) i) 0 x) /\
  c_starts n F lw aw dw align mem ra (dma_init ns) i x = true /\
  occurrences (c_accepted n F lw aw dw align mem ra (dma_init ns) i) (x + 1) (y - x - 1) = m - 1 /\
  c_accepted n F lw aw dw align mem ra (dma_init ns) i y = true /\
  sl_addr (dm_slot (cap_dma (cap_run n F lw aw dw align mem ra (dma_init ns) i x))) = slot_address n F lw aw dw align mem ra ns i w c /\
  slot_status n F lw aw dw align mem ra ns i (S z) c = 2%Z /\
  collect (c_write n F lw aw dw align mem ra (dma_init ns) i) w (S z - w) = collect (c_write n F lw aw dw align mem ra (dma_init ns) i) (x + 1) (y - x).
Proof.
  intros n F lw aw dw align mem ra ns i N HM Haw K E B X HX H1 H2 H3 HD Hsys Hpix b m words M1 HB T0 HT w c TW HW LD SZ.
  destruct LD as [LC LE LW LQ LI LM].
  set (kp := c_kept n F lw aw dw align mem ra (dma_init ns) i). set (tk := c_taken n F lw aw dw align mem ra (dma_init ns) i).
  pose proof (lv_mem i K H1) as HM1. pose proof (lv_drain n F lw aw dw align mem ra (dma_init ns) i E H2) as HD1.
  assert (OLD : length (collect kp 0 T0) <= length (collect tk 0 w)).
  { apply (taken_by n F lw aw dw align mem ra (dma_init ns) i N HM K E HM1 HD1 (B + E + K + 5) T0 w TW).
    - apply (lv_backlog n F lw aw dw align mem ra (dma_init ns) i N HM K E B X HX H1 H2 H3); assumption.
    - change (c_sys i) with (fun t => cap_sys (i t)). lia. }
  destruct (loaded n F lw aw dw align mem ra ns i w c (slot_address n F lw aw dw align mem ra ns i w c) Hsys LE LW LQ LI LC) as (x0 & X0 & G1 & G2 & G3 & G4).
  { intros j J. unfold sl_loaded. destruct (LM j J) as [G|G]; unfold slot_status in G; rewrite G; reflexivity. }
  { reflexivity. }
  destruct (capture n F lw aw dw align mem ra (dma_init ns) i N HM K E HM1 HD1 Hsys) with (x0 := x0) (c := c) (m := m)
    as (x & y & z & XY & YZ & ST & CNT & LAST & AD & SS & WR & _); try assumption.
  { apply (lv_sof n F lw aw dw align mem ra (dma_init ns) i N HM K E B X HX H1 H2 H3 HD b m words M1 HB T0 HT Hpix). }
  { intros t T _ _. rewrite LQ by lia. exact I. }
  { rewrite slots_count. exact LC. }
  { rewrite G3. reflexivity. }
  { intros t T. apply SZ. lia. }
  exists x, y, z. split; [lia|]. split; [exact YZ|]. split.
  { etransitivity; [exact OLD|]. unfold tk. replace x with (w + (x - w)) by lia. rewrite collect_app, app_length. lia. }
  split; [exact ST|]. split; [exact CNT|]. split; [exact LAST|]. split; [rewrite AD, G3; reflexivity|]. split; [exact SS|].
  rewrite <- WR. replace (S z - w) with ((x0 - w) + (S z - x0)) by lia. rewrite collect_app. replace (w + (x0 - w)) with x0 by lia.
  set (wr := c_write n F lw aw dw align mem ra (dma_init ns) i).
  assert (NONE : forall len, w + len <= x0 -> collect wr w len = []).
  { induction len as [|len IH]; intros L; [reflexivity|]. cbn [collect]. rewrite IH by lia.
    unfold wr, c_write, dm_write. rewrite G4 by lia. destruct (c_sys i (w + len)); reflexivity. }
  rewrite NONE by lia. reflexivity.
Qed.

(** A slot that software loads while frames of [m] words are arriving gets one whole
    frame, whatever the relation of the clocks and the pauses of the memory within
    the bounds above: some time later the slot is marked as filled, its buffer holds
    the words of one frame in order, and nothing else has been written. *)
Theorem C95_capture_completes :
  forall n F lw aw dw align mem ra ns (i : nat -> cap_in), (1 <= n)%Z -> Z.of_nat (length mem) = (2 ^ n)%Z -> (0 < aw)%Z ->
  forall K E B (x_in : nat -> pk_in),
  (forall t, cap_pix (i t) = true -> cap_pk (i t) = x_in (occurrences (fun u => cap_pix (i u)) 0 t)) ->
  runs_bounded (fun t => cap_sys (i t)) (fun t => negb (cap_mready (i t))) K ->
  runs_bounded (fun t => cap_sys (i t))
    (fun t => cap_wbusy (i t) && match c_write n F lw aw dw align mem ra (dma_init ns) i t with None => true | Some _ => false end) E ->
  slow_enough F x_in (fun t => cap_pix (i t)) (fun t => cap_sys (i t)) K E B ->
  B + E + K + 5 < (K + 1) * (2 ^ Z.to_nat n - 2) ->
  keeps_running (fun t => cap_sys (i t)) -> keeps_running (fun t => cap_pix (i t)) ->
  forall b m words, 1 <= m ->
  (forall f, b f <= b (S f) /\
     collect (word_out F x_in) (b f) (b (S f) - b f) = map (fun j => (Nat.eqb j 0, words f j)) (seq 0 m)) ->
  forall T0, occurrences (fun u => cap_pix (i u)) 0 T0 = b 0 ->
  forall w c, T0 <= w -> B + 2 * (E + K) + 10 <= occurrences (fun t => cap_sys (i t)) T0 (w - T0) ->
  loads n F lw aw dw align mem ra ns i w c ->
  (forall t, w < t -> Z.of_nat m = size_words aw align (cap_size (i t))) ->
  let a := word_address aw align (slot_address n F lw aw dw align mem ra ns i w c) in
  exists z, w < z /\ slot_status n F lw aw dw align mem ra ns i z c = 2%Z /\
  forall M, let M' := after M (collect (c_write n F lw aw dw align mem ra (dma_init ns) i) w (z - w)) in
  exists f, (forall j, j < m -> M' ((a + Z.of_nat j) mod 2 ^ aw)%Z = (joined lw (words f j) mod 2 ^ dw)%Z) /\
  (forall v, (forall j, j < m -> v <> ((a + Z.of_nat j) mod 2 ^ aw)%Z) -> M' v = M v).
Proof.
  intros n F lw aw dw align mem ra ns i N HM Haw K E B X HX H1 H2 H3 HD Hsys Hpix b m words M1 HB T0 HT w c TW HW LD SZ a.
  destruct (capture_after_load n F lw aw dw align mem ra ns i N HM Haw K E B X HX H1 H2 H3 HD Hsys Hpix b m words M1 HB T0 HT w c TW HW LD SZ)
    as (x & y & z & (XY & WX) & YZ & OLD & ST & CNT & LAST & AD & SS & WR).
  exists (S z). split; [lia|]. split; [exact SS|]. intros M M'. unfold M'. rewrite WR. unfold a. rewrite <- AD.
  apply (C79_frame_in_memory n F lw aw dw align mem ra (dma_init ns) i N HM Haw X b m words M1 HX HB T0 x y XY HT); try assumption.
  - intros t T. apply (lv_no_loss n F lw aw dw align mem ra (dma_init ns) i N HM K E B X HX H1 H2 H3 HD).
  - apply SZ. lia.
Qed.
Print Assumptions C95_capture_completes.

(** A concrete run: one pix clock in four sys clocks, a memory that takes a word
    every other clock, a FIFO of 16 words, frames of two words of two pixels; slot 0
    gets its address at instant 4 and is loaded at instant 60. *)
Definition ex_live_in (t : nat) : cap_in :=
  {| cap_pix := Nat.eqb (t mod 4) 0; cap_sys := true; cap_pk := ex_cap_pk (t / 4); cap_mready := Nat.odd t;
     cap_wbusy := false; cap_size := 16;
     cap_sw := if Nat.eqb t 4 then SwAddr 0 64 else if Nat.eqb t 60 then SwStatus 0 1 else SwNone; cap_mp := 1; cap_mc := 0 |}%Z.
Definition ex_live_arg (A : Type) (g : Z -> nat -> Z -> Z -> Z -> Z -> list (bool * list Z) -> Z -> nat -> (nat -> cap_in) -> A) : A :=
  g 4%Z 2 32%Z 8%Z 64%Z 3%Z (repeat fe_word0 16) 0%Z 2 ex_live_in.

Lemma ex_mod : forall x, (x + 3) mod 4 = if Nat.eqb (x mod 4) 0 then 3 else x mod 4 - 1.
Proof.
  intros x. pose proof (Nat.div_mod x 4 ltac:(lia)) as Q. pose proof (Nat.mod_upper_bound x 4 ltac:(lia)) as U.
  destruct (Nat.eqb_spec (x mod 4) 0); symmetry; [apply Nat.mod_unique with (x / 4)|apply Nat.mod_unique with (x / 4 + 1)]; lia.
Qed.
Lemma ex_live_pix : forall a L, 4 * occurrences (fun t => cap_pix (ex_live_in t)) a L + (a + L + 3) mod 4 = L + (a + 3) mod 4.
Proof.
  intros a L. induction L as [|L IH]; [rewrite Nat.add_0_r; reflexivity|]. cbn [occurrences]. cbn [cap_pix ex_live_in] in *.
  replace (a + S L + 3) with (a + L + 1 * 4) by lia. rewrite Nat.mod_add by lia. rewrite (ex_mod (a + L)) in IH.
  destruct (Nat.eqb_spec ((a + L) mod 4) 0); lia.
Qed.
Lemma ex_live_sys : forall a L, occurrences (fun t => cap_sys (ex_live_in t)) a L = L.
Proof. intros a L. induction L as [|L IH]; [reflexivity|]. cbn [occurrences]. rewrite IH. cbn. lia. Qed.
Example ex_live_clock : forall t, cap_pix (ex_live_in t) = true -> cap_pk (ex_live_in t) = ex_cap_pk (occurrences (fun u => cap_pix (ex_live_in u)) 0 t).
Proof.
  intros t H. cbn [cap_pix ex_live_in] in H. pose proof (ex_live_pix 0 t) as Q. rewrite (ex_mod (0 + t)) in Q. cbn [Nat.add] in Q. rewrite H in Q.
  apply Nat.eqb_eq in H. pose proof (Nat.div_mod t 4 ltac:(lia)) as D. cbn [cap_pk ex_live_in]. f_equal. change (3 mod 4) with 3 in Q. lia.
Qed.
Example ex_live_mem : runs_bounded (fun t => cap_sys (ex_live_in t)) (fun t => negb (cap_mready (ex_live_in t))) 1.
Proof.
  intros u t UT H. rewrite ex_live_sys. destruct (Nat.le_gt_cases (t - u) 1) as [L|L]; [exact L|]. exfalso.
  pose proof (H u ltac:(lia) eq_refl) as A. pose proof (H (S u) ltac:(lia) eq_refl) as C. cbn [cap_mready ex_live_in] in A, C.
  rewrite Nat.odd_succ, <- Nat.negb_odd in C. destruct (Nat.odd u); discriminate.
Qed.
Example ex_live_drain : runs_bounded (fun t => cap_sys (ex_live_in t)) (fun t => cap_wbusy (ex_live_in t) &&
  match ex_live_arg _ (fun n F lw aw dw align mem ra ns i => c_write n F lw aw dw align mem ra (dma_init ns) i) t with None => true | Some _ => false end) 0.
Proof.
  intros u t UT H. rewrite ex_live_sys. destruct (Nat.le_gt_cases (t - u) 0) as [L|L]; [exact L|]. exfalso.
  specialize (H u ltac:(lia) eq_refl). discriminate.
Qed.
Example ex_live_slow : slow_enough 2 ex_cap_pk (fun t => cap_pix (ex_live_in t)) (fun t => cap_sys (ex_live_in t)) 1 0 6.
Proof.
  change 2 with (2 ^ 1) at 1. change 6 with (4 / 2 ^ 1 + (1 + 0 + 3)). apply clocks_slow_enough; [lia|]. intros a b _.
  rewrite ex_live_sys. pose proof (ex_live_pix a (b - a)). pose proof (Nat.mod_upper_bound (a + 3) 4 ltac:(lia)).
  change (2 ^ 1) with 2. lia.
Qed.
Example ex_live_running : keeps_running (fun t => cap_sys (ex_live_in t)) /\ keeps_running (fun t => cap_pix (ex_live_in t)).
Proof.
  split; intros u k.
  - exists (u + k). rewrite ex_live_sys. lia.
  - exists (u + 4 * (k + 1)). split; [lia|]. pose proof (ex_live_pix u (4 * (k + 1))). replace (u + 4 * (k + 1) - u) with (4 * (k + 1)) by lia.
    pose proof (Nat.mod_upper_bound (u + 4 * (k + 1) + 3) 4 ltac:(lia)). lia.
Qed.
Example ex_live_loads : ex_live_arg _ loads 60 0.
Proof.
  unfold ex_live_arg. destruct (idle_at_first 4%Z 2 32%Z 8%Z 64%Z 3%Z (repeat fe_word0 16) 0%Z 2 ex_live_in 60) as [A B].
  { intros t j v T. cbn [cap_sw ex_live_in]. destruct (Nat.eqb t 4); [discriminate|]. destruct (Nat.eqb_spec t 60); [lia|discriminate]. }
  constructor; try assumption.
  - lia.
  - reflexivity.
  - reflexivity.
  - intros t T. cbn [cap_sw ex_live_in]. destruct (Nat.eqb_spec t 4); [lia|]. destruct (Nat.eqb_spec t 60); [lia|reflexivity].
  - intros j _. left. apply B.
Qed.
(** All hypotheses hold, so the slot is filled; by computation this happens at
    instant 109, with the words of a frame at word address 8. *)
Example ex_live : ex_live_arg _ slot_address 60 0 = 64%Z /\ exists z, 60 < z /\ ex_live_arg _ slot_status z 0 = 2%Z.
Proof.
  split; [vm_compute; reflexivity|].
  destruct (C95_capture_completes 4 2 32 8 64 3 (repeat fe_word0 16) 0 2 ex_live_in ltac:(lia) eq_refl ltac:(lia) 1 0 6 ex_cap_pk
    ex_live_clock ex_live_mem ex_live_drain ex_live_slow ltac:(apply Nat.ltb_lt; vm_compute; reflexivity) (proj1 ex_live_running) (proj2 ex_live_running)
    ex_b 2 ex_words ltac:(lia) ex_cap_windows 41 ltac:(vm_compute; reflexivity) 60 0 ltac:(lia)) as (z & W & S & _).
  - rewrite ex_live_sys. lia.
  - exact ex_live_loads.
  - intros t _. vm_compute. reflexivity.
  - exists z. split; [exact W|exact S].
Qed.
Example ex_live_written : find (fun z => Z.eqb (ex_live_arg _ slot_status z 0) 2) (seq 61 60) = Some 109.
Proof. vm_compute. reflexivity. Qed.
