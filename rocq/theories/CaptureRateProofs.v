(** Lemmas for C94: the capture path keeps up with the stream. *)
From Coq Require Import ZArith List Bool Lia Arith.
From Verif Require Import Hdl Trace CdcProofs AnalysisModel InDmaModel FifoModel FifoProofs FifoProps CaptureModel CaptureProofs.
Import ListNotations.
Open Scope nat_scope.

(** Sys clocks charged for a word: [K + 1] for the word, [E + 2] more if it is the
    first of a frame. *)
Definition word_cost (K E : nat) (w : bool * list Z) : nat := K + 1 + (if fst w then E + 2 else 0).
Definition cost (K E : nat) (f : nat -> option (bool * list Z)) (a len : nat) : nat :=
  list_sum (map (word_cost K E) (collect f a len)).

Lemma cost_app : forall K E f a n m, cost K E f a (n + m) = cost K E f a n + cost K E f (a + n) m.
Proof. intros. unfold cost. rewrite collect_app, map_app, list_sum_app. reflexivity. Qed.
Lemma cost_S : forall K E f a n, cost K E f a (S n) = cost K E f a n + match f (a + n) with Some w => word_cost K E w | None => 0 end.
Proof.
  intros. unfold cost. cbn [collect]. rewrite map_app, list_sum_app. destruct (f (a + n)); cbn [map list_sum fold_right]; lia.
Qed.
Lemma cost_split : forall K E f a b c, a <= b <= c -> cost K E f a (c - a) = cost K E f a (b - a) + cost K E f b (c - b).
Proof. intros. replace (c - a) with ((b - a) + (c - b)) by lia. rewrite cost_app. do 2 f_equal. lia. Qed.
Lemma occ_split : forall e a b c, a <= b <= c -> occurrences e a (c - a) = occurrences e a (b - a) + occurrences e b (c - b).
Proof. intros. replace (c - a) with ((b - a) + (c - b)) by lia. rewrite occ_app. do 2 f_equal. lia. Qed.
Lemma occ_upto : forall e a b c, a <= b <= c -> occurrences e b (c - b) <= occurrences e a (c - a).
Proof. intros. rewrite (occ_split e a b c) by assumption. lia. Qed.

Lemma sum_firstn : forall (l : list nat) j k, j <= k -> list_sum (firstn j l) <= list_sum (firstn k l).
Proof.
  induction l as [|x l IH]; intros j k H; [rewrite !firstn_nil; lia|].
  destruct j; [cbn; lia|]. destruct k; [lia|]. cbn [firstn list_sum fold_right]. specialize (IH j k ltac:(lia)).
  unfold list_sum in IH. lia.
Qed.
Lemma sum_bounds : forall K E l, length l * (K + 1) <= list_sum (map (word_cost K E) l) <= length l * (K + E + 3).
Proof.
  intros K E. induction l as [|w l IH]; [cbn; lia|]. cbn [map length list_sum fold_right]. unfold list_sum in IH.
  unfold word_cost at 1 3. destruct (fst w); lia.
Qed.

(** An instant before which [k] of the edges before [t] lie. *)
Lemma edges_back : forall e t k, k <= occurrences e 0 t -> exists u, u <= t /\ occurrences e u (t - u) = k.
Proof.
  intros e t k H. induction t as [|t IH].
  - cbn in H. exists 0. split; [lia|]. cbn. lia.
  - destruct (Nat.eq_dec k 0) as [->|NK]; [exists (S t); rewrite Nat.sub_diag; split; [lia|reflexivity]|].
    cbn [occurrences Nat.add] in H.
    (* search from the left *)
    assert (G : forall d, d <= S t -> k <= occurrences e (S t - d) d -> exists u, u <= S t /\ occurrences e u (S t - u) = k).
    { induction d as [|d ID]; intros D Q; [cbn in Q; lia|].
      destruct (Nat.le_gt_cases k (occurrences e (S t - d) d)) as [L|L]; [apply ID; [lia|exact L]|].
      exists (S t - S d). split; [lia|]. replace (S t - (S t - S d)) with (S d) by lia.
      change (S d) with (1 + d) in Q at 2. rewrite occ_app in Q. cbn [occurrences] in Q. rewrite ?Nat.add_0_r, ?Nat.add_0_l in Q.
      replace (S t - S d + 1) with (S t - d) in Q by lia.
      change (S d) with (1 + d) at 2. rewrite occ_app. cbn [occurrences]. rewrite ?Nat.add_0_r, ?Nat.add_0_l.
      replace (S t - S d + 1) with (S t - d) by lia. destruct (e (S t - S d)); lia. }
    apply (G (S t)); [lia|]. rewrite Nat.sub_diag. cbn [occurrences Nat.add]. exact H.
Qed.

Section Rate.
Variables (n : Z) (F : nat) (lw aw dw align : Z) (mem : list (bool * list Z)) (ra : Z) (d0 : dma_st) (i : nat -> cap_in).
Hypothesis N : (1 <= n)%Z.
Hypothesis HM : Z.of_nat (length mem) = (2 ^ n)%Z.
Let st (t : nat) : cap_st := cap_run n F lw aw dw align mem ra d0 i t.
Let kp := c_kept n F lw aw dw align mem ra d0 i.
Let tk := c_taken n F lw aw dw align mem ra d0 i.
Let fin := c_fin n F lw aw dw align mem ra d0 i.
Let sys := c_sys i.
Variables (K E B : nat).
(** At most [K] sys clocks in a row without a word accepted, at most [E] until the
    last words have been written. *)
Hypothesis Hmem : forall u t, u <= t -> (forall v, u <= v < t -> sys v = true -> cap_mready (i v) = false) ->
  occurrences sys u (t - u) <= K.
Hypothesis Hdrain : forall u t, u <= t -> (forall v, u <= v < t -> sys v = true -> dm_fsm (cap_dma (st v)) = EOF /\ cap_wbusy (i v) = true) ->
  occurrences sys u (t - u) <= E.

Definition readable (t : nat) : bool := match fe_frame (cap_fe (cap_run n F lw aw dw align mem ra d0 i t)) with Some _ => true | None => false end.

Lemma tk_def : forall t, tk t = if sys t && dm_ready (cap_dma (st t)) (c_din n F lw aw dw align mem ra d0 i t) then fe_frame (cap_fe (st t)) else None.
Proof. intros t. unfold tk, c_taken, delivered. rewrite <- (c_fe_run n F lw aw dw align mem ra d0 i t). reflexivity. Qed.
Lemma tk_none_held : forall t, tk t = None -> forall w, fe_frame (cap_fe (st t)) = Some w -> fe_frame (cap_fe (st (S t))) = Some w.
Proof.
  intros t T w W. rewrite tk_def in T. unfold st in *. rewrite c_fe_run in *. apply C77_held; [exact N|exact HM|exact W|].
  rewrite W in T. unfold c_fin at 1 2. cbn [fei_sys fei_ready cap_fe_in]. fold (sys t).
  change (cap_dma_in lw (cap_run n F lw aw dw align mem ra d0 i t) (i t)) with (c_din n F lw aw dw align mem ra d0 i t).
  change (cap_sys (i t)) with (sys t). destruct (sys t && _); [discriminate|reflexivity].
Qed.
Lemma dma_S : forall t, cap_dma (st (S t)) = if sys t then dma_step aw dw align (cap_dma (st t)) (c_din n F lw aw dw align mem ra d0 i t) else cap_dma (st t).
Proof. intros t. apply c_dma_step. Qed.
Lemma din_some : forall t w, fe_frame (cap_fe (st t)) = Some w ->
  let d := c_din n F lw aw dw align mem ra d0 i t in dmi_valid d = true /\ dmi_sof d = fst w /\ dmi_ready d = cap_mready (i t) /\ dmi_wbusy d = cap_wbusy (i t).
Proof. intros t w W. cbv zeta. unfold c_din, cap_dma_in. fold (st t). rewrite W. cbn. auto. Qed.

(** Service while there always is a word. *)
Definition J (a t : nat) : Prop :=
  let d := occurrences sys a (t - a) in let c := cost K E tk a (t - a) in
  match dm_fsm (cap_dma (st t)) with
  | WAIT_SOF => d <= c + E + 1
  | TRANSFER => exists u, a <= u <= t /\ (forall v, u <= v < t -> sys v = true -> cap_mready (i v) = false) /\
      (d <= c + occurrences sys u (t - u) \/
       (exists w, fe_frame (cap_fe (st t)) = Some w /\ fst w = true) /\ d <= c + E + 2 + occurrences sys u (t - u))
  | EOF => exists u, a <= u <= t /\ (forall v, u <= v < t -> sys v = true -> dm_fsm (cap_dma (st v)) = EOF /\ cap_wbusy (i v) = true) /\
      d <= c + occurrences sys u (t - u)
  end.

Lemma J_init : forall a, J a a.
Proof.
  intros a. unfold J. rewrite Nat.sub_diag. cbn [occurrences]. destruct (dm_fsm _); [lia| |].
  - exists a. split; [lia|]. split; [lia|]. left. rewrite Nat.sub_diag. cbn. lia.
  - exists a. split; [lia|]. split; [lia|]. rewrite Nat.sub_diag. cbn. lia.
Qed.

Lemma J_step : forall a t, a <= t -> readable t = true -> J a t -> J a (S t).
Proof.
  intros a t AT R H. unfold readable in R. fold (st t) in R. destruct (fe_frame (cap_fe (st t))) as [w|] eqn:W; [|discriminate]. clear R.
  pose proof (din_some t w W) as D. cbv zeta in D. set (d := c_din n F lw aw dw align mem ra d0 i t) in *. destruct D as (DV & DS & DR & DB).
  assert (OS : forall u, a <= u <= t -> occurrences sys u (S t - u) = occurrences sys u (t - u) + if sys t then 1 else 0).
  { intros u U. replace (S t - u) with (S (t - u)) by lia. cbn [occurrences]. replace (u + (t - u)) with t by lia. reflexivity. }
  assert (CS : cost K E tk a (S t - a) = cost K E tk a (t - a) + match tk t with Some w => word_cost K E w | None => 0 end).
  { replace (S t - a) with (S (t - a)) by lia. rewrite cost_S. replace (a + (t - a)) with t by lia. reflexivity. }
  unfold J in *. rewrite dma_S, CS, OS by lia. fold d. rewrite tk_def. fold d. destruct (sys t) eqn:ST; cbn [andb].
  2:{ (* no edge *)
    assert (TN : tk t = None) by (rewrite tk_def, ST; reflexivity).
    rewrite !Nat.add_0_r. destruct (dm_fsm (cap_dma (st t))).
    - exact H.
    - destruct H as (u & U & A & Q). exists u. split; [lia|]. split.
      { intros v V SV. destruct (Nat.eq_dec v t) as [->|]; [congruence|apply A; [lia|exact SV]]. }
      rewrite (OS u) by lia. rewrite ?ST, ?Nat.add_0_r. destruct Q as [Q | [(w' & W' & S') Q]]; [left; exact Q|right]. split; [|exact Q].
      exists w'. split; [|exact S']. apply (tk_none_held t TN). congruence.
    - destruct H as (u & U & A & Q). exists u. split; [lia|]. split.
      { intros v V SV. destruct (Nat.eq_dec v t) as [->|]; [congruence|apply A; [lia|exact SV]]. }
      rewrite OS by lia. rewrite ?ST, ?Nat.add_0_r. exact Q. }
  destruct (dm_fsm (cap_dma (st t))) eqn:FS.
  - (* WAIT_SOF *)
    unfold dma_step; cbn [dm_fsm]. rewrite FS. unfold dm_start, dm_ready. rewrite FS, DV, DS, andb_true_r.
    destruct (dm_av (cap_dma (st t)) && fst w) eqn:G.
    + apply andb_prop in G as [GA GS]. rewrite GA, GS. cbn [negb orb].
      assert (TN : tk t = None) by (rewrite tk_def; fold d; unfold dm_ready; rewrite FS, DS, GA, GS, andb_false_r; reflexivity).
      exists (S t). split; [lia|]. split; [lia|]. right. split.
      * exists w. split; [apply (tk_none_held t TN); exact W|exact GS].
      * rewrite Nat.sub_diag. cbn [occurrences]. lia.
    + rewrite <- negb_andb, G. cbn [negb]. rewrite W. unfold word_cost. lia.
  - (* TRANSFER *)
    destruct H as (u & U & A & Q). unfold dma_step; cbn [dm_fsm]. rewrite FS. unfold dm_write, dm_ready. rewrite FS, DV, DR. cbn [andb].
    destruct (cap_mready (i t)) eqn:MR.
    + rewrite W. pose proof (Hmem u t ltac:(lia) A) as HK.
      assert (Q' : occurrences sys a (t - a) + 1 <= cost K E tk a (t - a) + word_cost K E w).
      { unfold word_cost. destruct Q as [Q | [(w' & W' & S') Q]]; [lia|]. rewrite W in W'. injection W' as <-. rewrite S'. lia. }
      destruct (true && (dm_left (cap_dma (st t)) =? 1)%Z).
      * exists (S t). split; [lia|]. split; [lia|]. rewrite Nat.sub_diag. cbn [occurrences]. lia.
      * exists (S t). split; [lia|]. split; [lia|]. left. rewrite Nat.sub_diag. cbn [occurrences]. lia.
    + cbn [andb]. exists u. split; [lia|]. split.
      { intros v V SV. destruct (Nat.eq_dec v t) as [->|]; [exact MR|apply A; [lia|exact SV]]. }
      rewrite OS by lia. rewrite ?ST. destruct Q as [Q | [(w' & W' & S') Q]]; [left; lia|right]. split; [|lia].
      assert (TN : tk t = None) by (rewrite tk_def; fold d; unfold dm_ready; rewrite FS, DR, ?MR, andb_false_r; reflexivity).
      exists w'. split; [|exact S']. apply (tk_none_held t TN). congruence.
  - (* EOF *)
    destruct H as (u & U & A & Q). unfold dma_step; cbn [dm_fsm]. rewrite FS. unfold dm_done, dm_ready. rewrite FS, DB.
    destruct (cap_wbusy (i t)) eqn:WB; cbn [negb].
    + exists u. split; [lia|]. split.
      { intros v V SV. destruct (Nat.eq_dec v t) as [->|]; [split; assumption|apply A; [lia|exact SV]]. }
      rewrite OS by lia. rewrite ?ST. lia.
    + pose proof (Hdrain u t ltac:(lia) A) as HE. lia.
Qed.

Lemma service : forall a t, a <= t -> (forall v, a <= v < t -> readable v = true) ->
  occurrences sys a (t - a) <= cost K E tk a (t - a) + E + K + 2.
Proof.
  intros a t AT R.
  assert (H : J a t).
  { replace t with (a + (t - a)) in R |- * by lia. induction (t - a) as [|m IH]; [rewrite Nat.add_0_r; apply J_init|].
    rewrite Nat.add_succ_r. apply J_step; [lia|apply R; lia|]. apply IH. intros; apply R; lia. }
  unfold J in H. destruct (dm_fsm (cap_dma (st t))).
  - lia.
  - destruct H as (u & U & A & Q). pose proof (Hmem u t ltac:(lia) A). destruct Q as [Q | [_ Q]]; lia.
  - destruct H as (u & U & A & Q). pose proof (Hdrain u t ltac:(lia) A). lia.
Qed.

(** Words waiting. *)
Lemma tk_prefix : forall t, collect tk 0 t = firstn (length (collect tk 0 t)) (collect kp 0 t) /\ length (collect tk 0 t) <= length (collect kp 0 t).
Proof.
  intros t. destruct (C77_in_order n F mem ra fin N HM t) as [A B']. split; [exact A|]. exact (proj1 B').
Qed.
Lemma waiting_cost : forall t, cost K E tk 0 t + (length (collect kp 0 t) - length (collect tk 0 t)) * (K + 1) <= cost K E kp 0 t
  <= cost K E tk 0 t + (length (collect kp 0 t) - length (collect tk 0 t)) * (K + E + 3).
Proof.
  intros t. destruct (tk_prefix t) as [A L]. unfold cost.
  rewrite <- (firstn_skipn (length (collect tk 0 t)) (collect kp 0 t)) at 2 3. rewrite map_app, list_sum_app, <- A.
  pose proof (sum_bounds K E (skipn (length (collect tk 0 t)) (collect kp 0 t))) as S1. rewrite skipn_length in S1. lia.
Qed.
Lemma prefix_cost : forall u a, length (collect kp 0 u) <= length (collect tk 0 a) -> u <= a -> cost K E kp 0 u <= cost K E tk 0 a.
Proof.
  intros u a L UA. destruct (tk_prefix a) as [A LA]. unfold cost. rewrite A.
  assert (Q : collect kp 0 u = firstn (length (collect kp 0 u)) (collect kp 0 a)).
  { replace a with (u + (a - u)) by lia. rewrite collect_app, firstn_app, Nat.sub_diag, firstn_all. cbn [firstn]. rewrite app_nil_r. reflexivity. }
  rewrite Q. rewrite <- !firstn_map. apply sum_firstn. exact L.
Qed.
Lemma not_readable : forall a, readable a = false -> exists u, u <= a /\ occurrences sys u (a - u) <= 2 /\ length (collect kp 0 u) <= length (collect tk 0 a).
Proof.
  intros a R. destruct (Nat.le_gt_cases 2 (occurrences sys 0 a)) as [H|H].
  - destruct (edges_back sys a 2 H) as (u & U & O). exists u. split; [exact U|]. split; [lia|].
    destruct (Nat.le_gt_cases (length (collect kp 0 u)) (length (collect tk 0 a))) as [L|L]; [exact L|]. exfalso.
    pose proof (C77_prompt n F mem ra fin N HM u a U) as P. specialize (P ltac:(change (2 <= occurrences sys u (a - u)); lia)). cbv zeta in P.
    specialize (P L). unfold readable in R. rewrite c_fe_run in R. fold fin in R. rewrite P in R. discriminate.
  - exists 0. split; [lia|]. rewrite Nat.sub_0_r. split; [lia|]. cbn. lia.
Qed.

Lemma last_gap : forall T t, T <= t -> (forall v, T <= v < t -> readable v = true) \/
  exists a, T <= a < t /\ readable a = false /\ forall v, a < v < t -> readable v = true.
Proof.
  intros T t H. induction t as [|t IH]; [left; lia|]. destruct (Nat.eq_dec T (S t)) as [->|]; [left; lia|].
  destruct (readable t) eqn:R.
  - destruct IH as [IH | (a & A & RA & V)]; [lia| |].
    + left. intros v Hv. destruct (Nat.eq_dec v t) as [->|]; [exact R|apply IH; lia].
    + right. exists a. split; [lia|]. split; [exact RA|]. intros v Hv. destruct (Nat.eq_dec v t) as [->|]; [exact R|apply V; lia].
  - right. exists t. split; [lia|]. split; [exact R|lia].
Qed.

(** Kept words are offered words. *)
Lemma kept_offered : forall a len, cost K E kp a len <= cost K E (pushed n F mem ra fin) a len.
Proof.
  intros a len. induction len as [|len IH]; [cbn; lia|]. rewrite !cost_S.
  assert (H : kp (a + len) = if dropped n F mem ra fin (a + len) then None else pushed n F mem ra fin (a + len)) by reflexivity.
  rewrite H. destruct (dropped n F mem ra fin (a + len)); destruct (pushed n F mem ra fin (a + len)); lia.
Qed.

Lemma kp_rate : forall a len, length (collect kp a len) <= occurrences (c_pix i) a len.
Proof.
  intros a len. induction len as [|len IH]; [cbn; lia|]. cbn [collect occurrences]. rewrite app_length.
  assert (H : length (match kp (a + len) with Some w => [w] | None => [] end) <= if c_pix i (a + len) then 1 else 0).
  { unfold kp, c_kept, kept, pushed. change (fei_pix (c_fin n F lw aw dw align mem ra d0 i (a + len))) with (c_pix i (a + len)).
    destruct (dropped _ _ _ _ _ _), (c_pix i (a + len)); cbn; try lia. destruct (pk_push _); cbn; lia. }
  lia.
Qed.

Section From.
Variables (T W0 : nat).
Hypothesis Hrate : forall a b, T <= a <= b -> cost K E (pushed n F mem ra fin) a (b - a) <= occurrences sys a (b - a) + B.
Hypothesis HW0 : length (collect kp 0 T) <= length (collect tk 0 T) + W0.

Lemma waiting : forall t, T <= t -> cost K E kp 0 t <= cost K E tk 0 t + B + W0 * (K + E + 3) + E + K + 5.
Proof.
  intros t HT. set (B0 := W0 * (K + E + 3)).
  assert (KT : cost K E kp 0 T <= cost K E tk 0 T + B0).
  { pose proof (waiting_cost T) as Q. unfold B0. assert (length (collect kp 0 T) - length (collect tk 0 T) <= W0) by lia. nia. }
  assert (PUSH : forall a, T <= a <= t -> cost K E kp a (t - a) <= occurrences sys a (t - a) + B).
  { intros a A. etransitivity; [apply kept_offered|]. apply Hrate. lia. }
  assert (S0 : forall f b, b <= t -> cost K E f 0 t = cost K E f 0 b + cost K E f b (t - b)).
  { intros f b A. pose proof (cost_split K E f 0 b t ltac:(lia)) as Q. rewrite !Nat.sub_0_r in Q. exact Q. }
  destruct (last_gap T t HT) as [R | (a & A & RA & R)].
  - pose proof (service T t HT R) as SV. pose proof (PUSH T ltac:(lia)). rewrite (S0 kp T HT), (S0 tk T HT). lia.
  - pose proof (service (S a) t ltac:(lia) ltac:(intros; apply R; lia)) as SV.
    assert (OA : forall u, u <= a -> occurrences sys u (t - u) <= occurrences sys u (a - u) + 1 + occurrences sys (S a) (t - S a)).
    { intros u U. rewrite (occ_split sys u a t) by lia. rewrite (occ_split sys a (S a) t) by lia.
      replace (S a - a) with 1 by lia. cbn [occurrences]. destruct (sys (a + 0)); lia. }
    destruct (not_readable a RA) as (u & U & O2 & L).
    destruct (Nat.le_gt_cases T u) as [TU|TU].
    + pose proof (prefix_cost u a L U) as PC. pose proof (PUSH u ltac:(lia)) as PU. pose proof (OA u U) as OU.
      rewrite (S0 kp u ltac:(lia)), (S0 tk (S a) ltac:(lia)).
      pose proof (cost_split K E tk 0 a (S a) ltac:(lia)) as Q. rewrite !Nat.sub_0_r in Q. rewrite Q. lia.
    + pose proof (PUSH T ltac:(lia)) as PU. pose proof (OA T ltac:(lia)) as OU. pose proof (occ_upto sys u T a ltac:(lia)) as OT.
      rewrite (S0 kp T ltac:(lia)), (S0 tk (S a) ltac:(lia)).
      pose proof (cost_split K E tk 0 T (S a) ltac:(lia)) as Q. rewrite !Nat.sub_0_r in Q. rewrite Q. lia.
Qed.

Hypothesis Hdepth : B + W0 * (K + E + 3) + E + K + 5 < (K + 1) * (2 ^ Z.to_nat n - 2).

Lemma no_loss_from : forall t, T <= t -> 2 <= occurrences (c_pix i) T (t - T) -> c_lost n F lw aw dw align mem ra d0 i t = false.
Proof.
  intros t HT HP. destruct (c_lost n F lw aw dw align mem ra d0 i t) eqn:L; [|reflexivity]. exfalso. unfold c_lost in L.
  assert (EB : exists u, T <= u <= t /\ occurrences (c_pix i) u (t - u) = 2).
  { destruct (edges_back (c_pix i) t 2) as (u & U & O).
    - pose proof (occ_split (c_pix i) 0 T t ltac:(lia)) as Q. rewrite !Nat.sub_0_r in Q. lia.
    - destruct (Nat.le_gt_cases T u) as [G|G]; [exists u; split; [lia|exact O]|]. exists T. split; [lia|].
      pose proof (occ_upto (c_pix i) u T t ltac:(lia)). lia. }
  destruct EB as (u & U & O). fold fin in L.
  pose proof (C77_drop_means_full n F mem ra fin N HM u t ltac:(lia) ltac:(change (2 <= occurrences (c_pix i) u (t - u)); lia) L) as FULL.
  change (length (collect tk 0 u) + 2 ^ Z.to_nat n <= length (collect kp 0 t)) in FULL.
  pose proof (waiting u ltac:(lia)) as WT. pose proof (waiting_cost u) as WC.
  pose proof (kp_rate u (t - u)) as KR. rewrite O in KR.
  assert (LK : length (collect kp 0 t) = length (collect kp 0 u) + length (collect kp u (t - u))).
  { replace t with (u + (t - u)) at 1 by lia. rewrite collect_app, app_length. reflexivity. }
  assert (Q : 2 ^ Z.to_nat n - 2 <= length (collect kp 0 u) - length (collect tk 0 u)) by lia. nia.
Qed.
End From.

Lemma no_loss_at_start : forall t, occurrences (c_pix i) 0 t < 2 -> c_lost n F lw aw dw align mem ra d0 i t = false.
Proof.
  intros t H. unfold c_lost, dropped, fe_drop. fold fin. set (fi := fun t => fe_fifo_in (fe_run n F mem ra fin t) (fin t)).
  rewrite fe_fifo_run. fold fi.
  destruct (f_inv_all _ n fe_word0 mem ra fi N HM t) as (P0 & P1 & C0 & C1 & I).
  change (af_run n mem ra fi t) with (f_st _ n mem ra fi t).
  rewrite (writable_spec _ n fe_word0 mem ra fi N _ _ _ _ _ I).
  assert (P : (f_P _ n mem ra fi t <= 1)%Z).
  { pose proof (kp_rate 0 t) as KR. unfold kp, c_kept in KR. rewrite kept_list in KR. fold fin in KR. fold fi in KR.
    pose proof (f_written_length _ n mem ra fi t) as WL. apply (f_equal Z.to_nat) in WL. rewrite Nat2Z.id in WL.
    lia. }
  assert (2 <= 2 ^ n)%Z by (change 2%Z with (2 ^ 1)%Z at 1; apply Z.pow_le_mono_r; lia).
  destruct I. replace (f_P _ n mem ra fi t <? C1 + 2 ^ n)%Z with true by (symmetry; apply Z.ltb_lt; lia).
  rewrite !andb_false_r. reflexivity.
Qed.
End Rate.
