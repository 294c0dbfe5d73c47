(** Lemmas for the capture path across both clocks. *)
From Coq Require Import ZArith List Bool Lia Arith.
From Verif Require Import Hdl Trace CdcProofs AnalysisModel FrameProps InDmaModel InDmaProofs InDmaProps FifoModel FifoProofs FifoProps
  CaptureModel.
Import ListNotations.
Open Scope nat_scope.

(** * A circuit in one clock domain seen at all instants *)
Section Gate.
Variable e : nat -> bool.
Lemma instant_of : forall t Y, t < Y -> e t = true -> instant e (occurrences e 0 t) Y = t.
Proof.
  intros t Y H E.
  assert (K : occurrences e 0 t < occurrences e 0 Y).
  { replace Y with (t + (1 + (Y - t - 1))) by lia. rewrite !occ_app. cbn [occurrences]. rewrite ?Nat.add_0_r, ?Nat.add_0_l, E. lia. }
  destruct (instant_spec e _ Y K) as (A & B & C). set (u := instant e (occurrences e 0 t) Y) in *.
  destruct (Nat.lt_trichotomy u t) as [L|[L|L]]; [|exact L|].
  - exfalso. replace t with (u + (1 + (t - u - 1))) in C by lia. rewrite !occ_app in C. cbn [occurrences] in C.
    rewrite ?Nat.add_0_r, ?Nat.add_0_l, B in C. lia.
  - exfalso. replace u with (t + (1 + (u - t - 1))) in C by lia. rewrite !occ_app in C. cbn [occurrences] in C.
    rewrite ?Nat.add_0_r, ?Nat.add_0_l, E in C. lia.
Qed.

Lemma gated_run : forall (St In : Type) (step : St -> In -> St) (d : nat -> St) (x : nat -> In) Y,
  (forall t, d (S t) = if e t then step (d t) (x t) else d t) ->
  forall t, t <= Y -> d t = at_ step (d 0) (fun k => x (instant e k Y)) (occurrences e 0 t).
Proof.
  intros St In step d x Y H. induction t as [|t IH]; intros L; [reflexivity|]. rewrite H, IH by lia.
  cbn [occurrences Nat.add]. destruct (e t) eqn:E; [|rewrite Nat.add_0_r; reflexivity].
  rewrite Nat.add_1_r. cbn [at_]. rewrite (instant_of t Y L E). reflexivity.
Qed.

Lemma gated_run_clock : forall (St In : Type) (step : St -> In -> St) (d : nat -> St) (x : nat -> In),
  (forall t, d (S t) = if e t then step (d t) (x (occurrences e 0 t)) else d t) ->
  forall t, d t = at_ step (d 0) x (occurrences e 0 t).
Proof.
  intros St In step d x H. induction t as [|t IH]; [reflexivity|]. rewrite H, IH.
  cbn [occurrences Nat.add]. destruct (e t); [|rewrite Nat.add_0_r; reflexivity]. rewrite Nat.add_1_r. reflexivity.
Qed.

Lemma collect_gated : forall (A : Type) (f g : nat -> option A) u len,
  (forall t, u <= t < u + len -> f t = if e t then g (occurrences e 0 t) else None) ->
  collect f u len = collect g (occurrences e 0 u) (occurrences e u len).
Proof.
  intros A f g u. induction len as [|len IH]; intros H; [reflexivity|]. cbn [collect occurrences].
  rewrite IH by (intros; apply H; lia). rewrite H by lia. destruct (e (u + len)).
  - rewrite Nat.add_1_r. cbn [collect]. rewrite occ_app. cbn [Nat.add]. reflexivity.
  - rewrite Nat.add_0_r, app_nil_r. reflexivity.
Qed.
Lemma occ_gated : forall (f g : nat -> bool) u len,
  (forall t, u <= t < u + len -> f t = e t && g (occurrences e 0 t)) ->
  occurrences f u len = occurrences g (occurrences e 0 u) (occurrences e u len).
Proof.
  intros f g u. induction len as [|len IH]; intros H; [reflexivity|]. cbn [occurrences].
  rewrite IH by (intros; apply H; lia). rewrite H by lia. destruct (e (u + len)); cbn [andb].
  - rewrite Nat.add_1_r. cbn [occurrences]. rewrite occ_app. cbn [Nat.add]. reflexivity.
  - rewrite !Nat.add_0_r. reflexivity.
Qed.
End Gate.

(** * Words of equal windows *)
Lemma nth_windows : forall (A : Type) (d : A) (W : nat -> list A) m, 1 <= m -> (forall f, length (W f) = m) ->
  forall g f0 q, q < g * m -> nth q (concat (map W (seq f0 g))) d = nth (q mod m) (W (f0 + q / m)) d.
Proof.
  intros A d W m M L. induction g as [|g IH]; intros f0 q Q; [lia|]. cbn [seq map concat].
  destruct (Nat.lt_ge_cases q m).
  - rewrite app_nth1 by (rewrite L; lia). rewrite Nat.mod_small, Nat.div_small by lia. rewrite Nat.add_0_r. reflexivity.
  - rewrite app_nth2 by (rewrite L; lia). rewrite L. rewrite IH by lia.
    replace q with (q - m + 1 * m) at 3 4 by lia. rewrite Nat.mod_add, Nat.div_add by lia. f_equal. f_equal. lia.
Qed.

Lemma concat_windows_length : forall (A : Type) (W : nat -> list A) m, (forall f, length (W f) = m) ->
  forall g f0, length (concat (map W (seq f0 g))) = g * m.
Proof. intros A W m L. induction g as [|g IH]; intros f0; [reflexivity|]. cbn [seq map concat]. rewrite app_length, L, IH. lia. Qed.

Lemma nth_prefix : forall (A : Type) (f : nat -> option A) d a n N k, n <= N -> k < length (collect f a n) ->
  nth k (collect f a n) d = nth k (collect f a N) d.
Proof.
  intros A f d a n N k L K. replace N with (n + (N - n)) by lia. rewrite collect_app, app_nth1 by exact K. reflexivity.
Qed.

Lemma nth_firstn_lt : forall (A : Type) (l : list A) b k d, k < b -> nth k (firstn b l) d = nth k l d.
Proof.
  intros A. induction l as [|v l IH]; intros b k d K; [rewrite firstn_nil; reflexivity|].
  destruct b; [lia|]. destruct k; [reflexivity|]. cbn [firstn nth]. apply IH. lia.
Qed.
Lemma combine_map2 : forall (A B C : Type) (f : A -> B) (g : A -> C) l, combine (map f l) (map g l) = map (fun v => (f v, g v)) l.
Proof. intros A B C f g. induction l as [|v l IH]; [reflexivity|]. cbn [map combine]. rewrite IH. reflexivity. Qed.

(** * The composed system *)
Section Sys.
Variables (n : Z) (F : nat) (lw aw dw align : Z) (mem : list (bool * list Z)) (ra : Z) (d0 : dma_st) (i : nat -> cap_in).
Hypothesis N : (1 <= n)%Z.
Hypothesis HM : Z.of_nat (length mem) = (2 ^ n)%Z.
Hypothesis Haw : (0 < aw)%Z.
Let st (t : nat) : cap_st := cap_run n F lw aw dw align mem ra d0 i t.
Definition c_pix (t : nat) : bool := cap_pix (i t).
Definition c_sys (t : nat) : bool := cap_sys (i t).
Definition c_fin (t : nat) : fe_in := cap_fe_in lw (cap_run n F lw aw dw align mem ra d0 i t) (i t).
Definition c_din (t : nat) : dma_in := cap_dma_in lw (cap_run n F lw aw dw align mem ra d0 i t) (i t).
(** Words stored in and taken from the FIFO. *)
Definition c_kept : nat -> option (bool * list Z) := kept n F mem ra c_fin.
Definition c_taken : nat -> option (bool * list Z) := delivered n F mem ra c_fin.
Definition c_lost : nat -> bool := dropped n F mem ra c_fin.
(** A word accepted by the memory at a sys edge; a write issued. *)
Definition c_accepted (t : nat) : bool := c_sys t && (dmi_valid (c_din t) && dmi_ready (c_din t)).
Definition c_write (t : nat) : option (Z * Z) :=
  if c_sys t then dm_write dw (cap_dma (cap_run n F lw aw dw align mem ra d0 i t)) (c_din t) else None.
Definition c_starts (t : nat) : bool := c_sys t && dm_start (cap_dma (cap_run n F lw aw dw align mem ra d0 i t)) (c_din t).

Lemma c_fe_run : forall t, cap_fe (st t) = fe_run n F mem ra c_fin t.
Proof.
  induction t as [|t IH]; [reflexivity|]. change (st (S t)) with (cap_step n F lw aw dw align (st t) (i t)).
  unfold cap_step; cbn [cap_fe]. rewrite IH. reflexivity.
Qed.

Lemma c_dma_step : forall t, cap_dma (st (S t)) = if c_sys t then dma_step aw dw align (cap_dma (st t)) (c_din t) else cap_dma (st t).
Proof. intros t. change (st (S t)) with (cap_step n F lw aw dw align (st t) (i t)). reflexivity. Qed.

Lemma c_head : forall t v, fe_frame (cap_fe (st t)) = Some v ->
  length (collect c_taken 0 t) < length (collect c_kept 0 t) /\
  v = nth (length (collect c_taken 0 t)) (collect c_kept 0 t) fe_word0.
Proof.
  intros t v E. unfold c_taken, c_kept. rewrite delivered_list, kept_list.
  set (fi := fun t => fe_fifo_in (fe_run n F mem ra c_fin t) (c_fin t)).
  rewrite c_fe_run in E. unfold fe_frame in E. rewrite fe_fifo_run in E. fold fi in E.
  destruct (af_readable (af_run n mem ra fi t)) eqn:R; [|discriminate]. injection E as <-.
  destruct (f_inv_all _ n fe_word0 mem ra fi N HM t) as (P0 & P1 & C0 & C1 & I).
  pose proof (dout_spec _ n fe_word0 mem ra fi N _ _ _ _ _ I R) as D.
  change (af_run n mem ra fi t) with (f_st _ n mem ra fi t) in R.
  rewrite (readable_spec _ n fe_word0 mem ra fi N _ _ _ _ _ I) in R. apply Z.ltb_lt in R.
  pose proof (f_written_length _ n mem ra fi t) as WL. pose proof (f_read_length _ n fe_word0 mem ra fi t) as RL.
  destruct I. split; [lia|]. etransitivity; [exact D|]. f_equal. lia.
Qed.

(** ** One capture *)
Section One.
Variables (x y m : nat).
Hypothesis XY : x < y.
Hypothesis START : c_starts x = true.
Hypothesis SIZE : Z.of_nat m = size_words aw align (cap_size (i x)).
Hypothesis M1 : 1 <= m.
Hypothesis CNT : occurrences c_accepted (x + 1) (y - x - 1) = m - 1.
Hypothesis LAST : c_accepted y = true.
Let Y := S y.
Let jd (k : nat) : dma_in := c_din (instant c_sys k Y).
Let cl (t : nat) : nat := occurrences c_sys 0 t.
Let a := word_address aw align (sl_addr (dm_slot (cap_dma (st x)))).

Lemma o_dma : forall t, t <= Y -> cap_dma (st t) = dma_run aw dw align d0 jd (cl t).
Proof. intros t T. apply (gated_run c_sys _ _ (dma_step aw dw align) (fun t => cap_dma (st t)) c_din Y c_dma_step t T). Qed.

Lemma o_jd : forall t, t < Y -> c_sys t = true -> jd (cl t) = c_din t.
Proof. intros t T E. unfold jd, cl. rewrite instant_of by assumption. reflexivity. Qed.

Lemma o_sys : c_sys x = true /\ c_sys y = true /\ dm_start (cap_dma (st x)) (c_din x) = true.
Proof.
  unfold c_starts in START. apply andb_prop in START as [A B]. unfold c_accepted in LAST. apply andb_prop in LAST as [C _].
  split; [exact A|]. split; [exact C|exact B].
Qed.

Lemma o_acc : forall t, t < Y -> c_accepted t = c_sys t && accepted jd (cl t).
Proof.
  intros t T. unfold c_accepted. destruct (c_sys t) eqn:E; [|reflexivity]. cbn [andb]. unfold accepted. rewrite o_jd by assumption. reflexivity.
Qed.

Lemma o_cl : forall u v, u <= v -> cl v = cl u + occurrences c_sys u (v - u).
Proof. intros u v H. unfold cl. replace v with (u + (v - u)) at 1 by lia. apply occ_app. Qed.
Lemma o_clS : forall u, c_sys u = true -> cl (u + 1) = cl u + 1.
Proof. intros u E. rewrite (o_cl u (u + 1)) by lia. replace (u + 1 - u) with 1 by lia. cbn [occurrences]. rewrite Nat.add_0_r, E. reflexivity. Qed.

Lemma o_pre : cl x + 1 <= cl y /\
  occurrences (accepted jd) (cl x + 1) (cl y - cl x - 1) = m - 1 /\ accepted jd (cl x + (cl y - cl x)) = true.
Proof.
  destruct o_sys as (SX & SY & ST). pose proof (o_clS x SX) as C1. pose proof (o_cl (x + 1) y ltac:(lia)) as C2.
  split; [lia|]. split.
  - rewrite <- CNT. rewrite (occ_gated c_sys c_accepted (accepted jd) (x + 1) (y - x - 1)) by (intros; apply o_acc; unfold Y; lia).
    change (occurrences c_sys 0 (x + 1)) with (cl (x + 1)). rewrite C1. f_equal. replace (y - (x + 1)) with (y - x - 1) in C2 by lia. lia.
  - replace (cl x + (cl y - cl x)) with (cl y) by lia. rewrite o_acc in LAST by (unfold Y; lia). rewrite SY in LAST. exact LAST.
Qed.

Lemma o_C24 :
  collect (write_at aw dw align d0 jd) (cl x + 1) (cl y - cl x)
  = combine (map (fun j => (a + Z.of_nat j) mod 2 ^ aw)%Z (seq 0 m)) (collect (accepted_word dw jd) (cl x + 1) (cl y - cl x)) /\
  length (collect (write_at aw dw align d0 jd) (cl x + 1) (cl y - cl x)) = m.
Proof.
  destruct o_sys as (SX & SY & ST). destruct o_pre as (P1 & P2 & P3).
  pose proof (C24_frame_written aw dw align Haw d0 jd (cl x) (cl y - cl x) m) as T. cbv zeta in T.
  rewrite <- o_dma in T by (unfold Y; lia). rewrite o_jd in T by (unfold Y; lia || assumption).
  specialize (T ST SIZE M1 ltac:(lia) P2 P3). destruct T as (A & B & _). fold a in A. split; [exact A|exact B].
Qed.

Lemma o_writes : collect c_write (x + 1) (y - x) = collect (write_at aw dw align d0 jd) (cl x + 1) (cl y - cl x).
Proof.
  destruct o_sys as (SX & SY & ST).
  rewrite (collect_gated c_sys _ c_write (write_at aw dw align d0 jd) (x + 1) (y - x)).
  - change (occurrences c_sys 0 (x + 1)) with (cl (x + 1)). rewrite (o_clS x SX). f_equal.
    pose proof (o_cl (x + 1) (S y) ltac:(lia)) as C. replace (S y - (x + 1)) with (y - x) in C by lia.
    replace (S y) with (y + 1) in C by lia. rewrite (o_clS y SY), (o_clS x SX) in C. lia.
  - intros t T. unfold c_write. destruct (c_sys t) eqn:E; [|reflexivity]. unfold write_at.
    fold (st t). rewrite o_dma by (unfold Y; lia). rewrite <- o_jd by (unfold Y; lia || assumption). reflexivity.
Qed.

(** During the capture words are taken from the FIFO exactly when the memory accepts them. *)
Lemma o_fsm : forall t, x < t <= y -> dm_fsm (cap_dma (st t)) = TRANSFER.
Proof.
  intros t T. destruct o_sys as (SX & SY & ST). rewrite o_dma by (unfold Y; lia).
  pose proof (o_clS x SX) as C1. pose proof (o_cl (x + 1) t ltac:(lia)) as C2.
  assert (ST' : dm_start (dma_run aw dw align d0 jd (cl x)) (jd (cl x)) = true) by (rewrite <- o_dma, o_jd by (unfold Y; lia || assumption); exact ST).
  assert (SZ : (Z.of_nat m = if slice align aw (dmi_size (jd (cl x))) =? 0 then 2 ^ aw else slice align aw (dmi_size (jd (cl x))))%Z).
  { rewrite o_jd by (unfold Y; lia || assumption). change (dmi_size (c_din x)) with (cap_size (i x)). change (Z.of_nat m = size_words aw align (cap_size (i x))) in SIZE.
    unfold size_words in SIZE. unfold slice. rewrite <- SIZE. destruct (Z.eqb_spec (Z.of_nat m) 0); [lia|reflexivity]. }
  destruct (transferring aw dw align Haw d0 jd (cl x) _ m ST' eq_refl SZ (cl t - cl x - 1)) as (A & _ & _).
  - assert (O : occurrences c_accepted (x + 1) (t - (x + 1)) = occurrences (accepted jd) (S (cl x)) (cl t - cl x - 1)).
    { rewrite (occ_gated c_sys c_accepted (accepted jd)) by (intros; apply o_acc; unfold Y; lia).
      change (occurrences c_sys 0 (x + 1)) with (cl (x + 1)). rewrite C1, Nat.add_1_r. f_equal. lia. }
    rewrite <- O. replace (y - x - 1) with ((t - (x + 1)) + (y - t)) in CNT by lia. rewrite occ_app in CNT. lia.
  - replace (S (cl x) + (cl t - cl x - 1)) with (cl t) in A by lia. exact A.
Qed.

Lemma o_taken : collect c_taken 0 (S y) = collect c_taken 0 x ++ collect c_taken (x + 1) (y - x).
Proof.
  destruct o_sys as (SX & SY & ST). replace (S y) with (x + (1 + (y - x))) by lia. rewrite collect_app, collect_app. cbn [Nat.add]. f_equal.
  cbn [collect]. rewrite Nat.add_0_r.
  assert (E : c_taken x = None); [|rewrite E; reflexivity].
  unfold c_taken, delivered, c_fin, cap_fe_in. cbn [fei_sys fei_ready].
  assert (R : dm_ready (cap_dma (st x)) (c_din x) = false).
  { unfold dm_start in ST. unfold dm_ready. destruct (dm_fsm (cap_dma (st x))); try discriminate.
    destruct (dm_av (cap_dma (st x))), (dmi_sof (c_din x)); try discriminate; reflexivity. }
  unfold st in R. unfold c_din in R. rewrite R, andb_false_r. reflexivity.
Qed.

Lemma o_taken_acc : forall t, x < t <= y -> c_taken t = if c_accepted t then fe_frame (cap_fe (st t)) else None.
Proof.
  intros t T. unfold c_taken, delivered. change (fei_sys (c_fin t)) with (c_sys t).
  change (fei_ready (c_fin t)) with (dm_ready (cap_dma (st t)) (c_din t)). rewrite <- c_fe_run. fold (st t).
  unfold dm_ready. rewrite (o_fsm t T). unfold c_accepted. destruct (c_sys t); [|reflexivity]. cbn [andb].
  change (dmi_valid (c_din t)) with (match fe_frame (cap_fe (st t)) with Some _ => true | None => false end).
  destruct (dmi_ready (c_din t)), (fe_frame (cap_fe (st t))); reflexivity.
Qed.

Lemma o_words : collect (accepted_word dw jd) (cl x + 1) (cl y - cl x)
  = map (fun v => trunc dw (lanes_z lw (snd v))) (collect c_taken (x + 1) (y - x)).
Proof.
  destruct o_sys as (SX & SY & ST).
  assert (CM : forall (A B : Type) (f : nat -> option A) (h : A -> B) u l,
            map h (collect f u l) = collect (fun t => match f t with Some v => Some (h v) | None => None end) u l).
  { intros A B f h u. induction l as [|l IH]; [reflexivity|]. cbn [collect]. rewrite map_app, IH. destruct (f (u + l)); reflexivity. }
  rewrite CM. symmetry.
  rewrite (collect_gated c_sys _ _ (accepted_word dw jd) (x + 1) (y - x)).
  - change (occurrences c_sys 0 (x + 1)) with (cl (x + 1)). rewrite (o_clS x SX). f_equal.
    pose proof (o_cl (x + 1) (S y) ltac:(lia)) as C. replace (S y - (x + 1)) with (y - x) in C by lia.
    replace (S y) with (y + 1) in C by lia. rewrite (o_clS y SY), (o_clS x SX) in C. lia.
  - intros t T. rewrite o_taken_acc by lia. rewrite (o_acc t) by (unfold Y; lia). destruct (c_sys t) eqn:E; [|reflexivity]. cbn [andb].
    fold (cl t). unfold accepted_word. unfold accepted. rewrite (o_jd t) by (unfold Y; lia || assumption).
    change (dmi_valid (c_din t)) with (match fe_frame (cap_fe (st t)) with Some _ => true | None => false end).
    change (dmi_px (c_din t)) with (lanes_z lw (snd (match fe_frame (cap_fe (st t)) with Some w => w | None => fe_word0 end))).
    destruct (fe_frame (cap_fe (st t))), (dmi_ready (c_din t)); reflexivity.
Qed.

Lemma o_count : length (collect c_taken (x + 1) (y - x)) = m.
Proof.
  destruct o_C24 as [A B]. rewrite A, combine_length, o_words in B. rewrite !map_length, seq_length in B.
  assert (L : length (collect c_taken (x + 1) (y - x)) = occurrences c_accepted (x + 1) (y - x)).
  { rewrite collect_length. apply occurrences_ext. intros t T. rewrite o_taken_acc by lia. unfold c_accepted.
    destruct (c_sys t); [|reflexivity]. cbn [andb].
    change (dmi_valid (c_din t)) with (match fe_frame (cap_fe (st t)) with Some _ => true | None => false end).
    destruct (fe_frame (cap_fe (st t))), (dmi_ready (c_din t)); reflexivity. }
  rewrite L. replace (y - x) with (y - x - 1 + 1) by lia. rewrite occ_app. cbn [occurrences]. rewrite CNT, Nat.add_0_r.
  replace (x + 1 + (y - x - 1)) with y by lia. rewrite LAST. lia.
Qed.

(** The capture writes the next [m] stored words at consecutive addresses. *)
Lemma one_capture :
  let R := length (collect c_taken 0 x) in
  R + m <= length (collect c_kept 0 (S y)) /\
  fst (nth R (collect c_kept 0 (S y)) fe_word0) = true /\
  collect c_write (x + 1) (y - x) =
  map (fun j => ((a + Z.of_nat j) mod 2 ^ aw, trunc dw (lanes_z lw (snd (nth (R + j) (collect c_kept 0 (S y)) fe_word0)))))%Z (seq 0 m).
Proof.
  intros R. destruct o_sys as (SX & SY & ST).
  pose proof (C77_in_order n F mem ra c_fin N HM (S y)) as [O1 [O2 _]]. fold c_kept in O1, O2. fold c_taken in O1, O2.
  assert (LEN : length (collect c_taken 0 (S y)) = R + m) by (rewrite o_taken, app_length, o_count; reflexivity).
  split; [lia|]. split.
  - assert (FR : exists v, fe_frame (cap_fe (st x)) = Some v /\ fst v = true).
    { unfold dm_start in ST. destruct (dm_fsm (cap_dma (st x))); try discriminate.
      change (dmi_sof (c_din x)) with (fst (match fe_frame (cap_fe (st x)) with Some w => w | None => fe_word0 end)) in ST.
      change (dmi_valid (c_din x)) with (match fe_frame (cap_fe (st x)) with Some _ => true | None => false end) in ST.
      destruct (fe_frame (cap_fe (st x))) as [v|]; [|rewrite andb_false_r in ST; discriminate]. exists v. split; [reflexivity|].
      destruct (fst v); [reflexivity|]. rewrite andb_false_r in ST. discriminate. }
    destruct FR as (v & E & V). destruct (c_head x v E) as [HL HV]. rewrite <- (nth_prefix _ c_kept fe_word0 0 x (S y)) by (lia || exact HL).
    fold R in HV. rewrite <- HV. exact V.
  - rewrite o_writes. destruct o_C24 as [-> _]. rewrite o_words.
    assert (E : collect c_taken (x + 1) (y - x) = map (fun j => nth (R + j) (collect c_kept 0 (S y)) fe_word0) (seq 0 m)).
    { apply nth_ext with (d := fe_word0) (d' := fe_word0); [rewrite o_count, map_length, seq_length; reflexivity|].
      intros k K. rewrite o_count in K. rewrite nth_map_seq by exact K.
      assert (H : nth k (collect c_taken (x + 1) (y - x)) fe_word0 = nth (R + k) (collect c_taken 0 (S y)) fe_word0).
      { rewrite o_taken, app_nth2 by (unfold R; lia). f_equal. unfold R. lia. }
      rewrite H, O1, LEN. apply nth_firstn_lt. lia. }
    rewrite E, map_map, combine_map2. reflexivity.
Qed.
End One.
End Sys.
