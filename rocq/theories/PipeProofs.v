(** Pipelined stream stages: every schedule. *)
From Coq Require Import List Bool Lia Arith.
From Verif Require Import Hdl Trace DelayModel PipeModel.
Import ListNotations.
Open Scope nat_scope.

Lemma dly_step_firstn : forall (A : Type) (s : list A) x, dly_step s x = firstn (length s) (x :: s).
Proof.
  induction s as [|a r IH]; intros x; [reflexivity|].
  cbn [dly_step length]. rewrite IH. reflexivity.
Qed.

Lemma dly_fold : forall (A : Type) (vs : list A) (s : list A),
  fold_left dly_step vs s = firstn (length s) (rev vs ++ s).
Proof.
  induction vs as [|v vs IH]; intros s.
  - cbn [fold_left rev app]. symmetry. apply firstn_all.
  - cbn [fold_left rev]. rewrite IH, dly_step_firstn.
    assert (L : length (firstn (length s) (v :: s)) = length s) by (rewrite firstn_length; cbn; lia).
    rewrite L, <- app_assoc. cbn [app]. rewrite !firstn_app. f_equal.
    rewrite firstn_firstn. f_equal. lia.
Qed.

Lemma last_nth' : forall (A : Type) (s : list A) d, s <> [] -> last s d = nth (length s - 1) s d.
Proof.
  induction s as [|a r IH]; intros d H; [congruence|].
  destruct r as [|b r]; [reflexivity|].
  change (last (a :: b :: r) d) with (last (b :: r) d). rewrite IH by congruence.
  cbn [length]. replace (S (S (length r)) - 1) with (S (S (length r) - 1)) by lia. reflexivity.
Qed.

(** Last stage of the valid pipeline after the slots [vs]. *)
Lemma dly_fold_last : forall (vs : list bool) L d, 0 < L ->
  last (fold_left dly_step vs (repeat false L)) d = (L <=? length vs) && nth (length vs - L) vs false.
Proof.
  intros vs L d HL. rewrite dly_fold, repeat_length.
  assert (E : length (firstn L (rev vs ++ repeat false L)) = L)
    by (rewrite firstn_length, app_length, repeat_length; lia).
  rewrite last_nth' by (intro H; rewrite H in E; cbn in E; lia). rewrite E.
  rewrite (nth_indep _ d false) by lia.
  assert (F : nth (L - 1) (firstn L (rev vs ++ repeat false L)) false = nth (L - 1) (rev vs ++ repeat false L) false).
  { rewrite <- (firstn_skipn L (rev vs ++ repeat false L)) at 2. rewrite app_nth1 by lia. reflexivity. }
  rewrite F. destruct (Nat.leb_spec L (length vs)) as [H | H]; cbn [andb].
  - rewrite app_nth1 by (rewrite rev_length; lia). rewrite rev_nth by lia. f_equal. lia.
  - rewrite app_nth2 by (rewrite rev_length; lia).
    rewrite rev_length. apply nth_repeat.
Qed.

Section Pipe.
Variables (St In Out : Type) (dp : St -> In -> St) (out : St -> Out) (s0 : St) (L : nat).
Hypothesis HL : 0 < L.
Variable i : nat -> pa_in In.

Let st n := pa_run St In dp s0 L i n.
Let ce n := pa_ce St In (st n) (i n).

(** Slots: (valid, data) of the clocks in which the pipeline advanced. *)
Definition pa_slots (n : nat) : list (bool * In) :=
  collect (fun m => if pa_ce St In (pa_run St In dp s0 L i m) (i m) then Some (pai_valid _ (i m), pai_data _ (i m)) else None) 0 n.

Lemma pa_run_S : forall n, st (S n) = pa_step St In dp (st n) (i n).
Proof. reflexivity. Qed.

Lemma pa_slots_S : forall n, pa_slots (S n) = pa_slots n ++ (if ce n then [(pai_valid _ (i n), pai_data _ (i n))] else []).
Proof. intros n. unfold pa_slots. cbn [collect plus]. fold (st n). fold (ce n). destruct (ce n); reflexivity. Qed.

Lemma pa_state : forall n,
  pa_dp _ (st n) = fold_left dp (map snd (pa_slots n)) s0 /\
  pa_v _ (st n) = fold_left dly_step (map fst (pa_slots n)) (repeat false L).
Proof.
  induction n as [|n [I1 I2]]; [split; reflexivity|].
  rewrite pa_run_S, pa_slots_S. unfold pa_step. fold (ce n). destruct (ce n).
  - rewrite !map_app, !fold_left_app. cbn [map fst snd fold_left pa_dp pa_v]. rewrite I1, I2. split; reflexivity.
  - rewrite app_nil_r. split; assumption.
Qed.

Lemma pa_source_valid_slots : forall n,
  pa_source_valid St In (st n) (i n) =
  (L <=? length (pa_slots n)) && nth (length (pa_slots n) - L) (map fst (pa_slots n)) false.
Proof.
  intros n. unfold pa_source_valid, dly_out. destruct (pa_state n) as [_ E]. rewrite E, dly_fold_last by exact HL.
  rewrite map_length. reflexivity.
Qed.

Definition pa_outputs (n : nat) : list Out :=
  collect (fun m => pa_out_event St In Out out (pa_run St In dp s0 L i m) (i m)) 0 n.
Definition pa_inputs (n : nat) : list In :=
  collect (fun m => pa_in_event St In (pa_run St In dp s0 L i m) (i m)) 0 n.

Lemma pa_inputs_slots : forall n, pa_inputs n = map snd (filter fst (pa_slots n)).
Proof.
  induction n as [|n IH]; [reflexivity|].
  rewrite pa_slots_S, filter_app, map_app, <- IH. unfold pa_inputs. cbn [collect plus]. f_equal.
  unfold pa_in_event, pa_sink_ready. fold (st n). fold (ce n).
  destruct (ce n); [rewrite andb_true_r; cbn [filter fst]; destruct (pai_valid _ (i n)); reflexivity|].
  rewrite andb_false_r. reflexivity.
Qed.

(** General form: slot [j], if valid, is delivered as the datapath's output
    after the slots [0 .. j+L-1]. *)
Lemma pa_outputs_general : forall n,
  pa_outputs n =
  map (fun j => out (fold_left dp (firstn (j + L) (map snd (pa_slots n))) s0))
    (filter (fun j => nth j (map fst (pa_slots n)) false) (seq 0 (length (pa_slots n) - L))).
Proof.
  induction n as [|n IH]; [reflexivity|].
  unfold pa_outputs in *. cbn [collect plus]. rewrite IH. clear IH.
  set (sl := pa_slots n).
  assert (EO : pa_out_event St In Out out (pa_run St In dp s0 L i n) (i n) =
               if ce n then (if (L <=? length sl) && nth (length sl - L) (map fst sl) false
                             then Some (out (fold_left dp (map snd sl) s0)) else None) else None).
  { fold (st n). unfold pa_out_event. unfold ce, pa_ce.
    destruct (pa_state n) as [E _]. rewrite E. fold sl.
    pose proof (pa_source_valid_slots n) as V. fold sl in V. rewrite V.
    destruct ((L <=? length sl) && nth (length sl - L) (map fst sl) false), (pai_ready _ (i n)); reflexivity. }
  rewrite EO. rewrite pa_slots_S. fold sl. destruct (ce n); [|rewrite !app_nil_r; reflexivity].
  rewrite app_length. cbn [length].
  destruct (Nat.leb_spec L (length sl)) as [H | H]; cbn [andb].
  - replace (length sl + 1 - L) with ((length sl - L) + 1) by lia. rewrite seq_app, filter_app, map_app.
    cbn [seq plus]. f_equal.
    + assert (EF : filter (fun j => nth j (map fst (sl ++ [(pai_valid _ (i n), pai_data _ (i n))])) false) (seq 0 (length sl - L))
                 = filter (fun j => nth j (map fst sl) false) (seq 0 (length sl - L))).
      { apply filter_ext_in. intros j Hj. apply in_seq in Hj. rewrite map_app, app_nth1 by (rewrite map_length; lia). reflexivity. }
      rewrite EF. apply map_ext_in. intros j Hj. apply filter_In in Hj as [Hj _]. apply in_seq in Hj.
      rewrite map_app, firstn_app, map_length. replace (j + L - length sl) with 0 by lia. cbn [firstn]. rewrite app_nil_r. reflexivity.
    + cbn [filter]. rewrite (map_app fst), app_nth1 by (rewrite map_length; lia).
      destruct (nth (length sl - L) (map fst sl) false); [|reflexivity]. cbn [map].
      rewrite map_app, firstn_app, map_length. replace (length sl - L + L) with (length sl) by lia.
      rewrite Nat.sub_diag. cbn [firstn]. rewrite app_nil_r.
      rewrite (firstn_all2 (n := length sl)) by (rewrite map_length; lia). reflexivity.
  - replace (length sl + 1 - L) with 0 by lia. replace (length sl - L) with 0 by lia. reflexivity.
Qed.

(** Pure pipelines: the output only depends on the sample [L] slots ago. *)
Variable f : In -> Out.
Hypothesis pure : forall s x ys, S (length ys) = L -> out (fold_left dp (x :: ys) s) = f x.

Lemma pure_at : forall (xs : list In) j d, j + L <= length xs ->
  out (fold_left dp (firstn (j + L) xs) s0) = f (nth j xs d).
Proof.
  intros xs j d H.
  assert (E : firstn (j + L) xs = firstn j xs ++ nth j xs d :: firstn (L - 1) (skipn (S j) xs)).
  { rewrite <- (firstn_skipn j xs) at 1. rewrite firstn_app.
    rewrite firstn_firstn, firstn_length. replace (Nat.min (j + L) j) with j by lia.
    replace (j + L - Nat.min j (length xs)) with L by lia. f_equal.
    assert (SK : skipn j xs = nth j xs d :: skipn (S j) xs).
    { clear - H HL. revert xs H. induction j as [|j IH]; intros [|x xs] H; cbn in H; try lia; [reflexivity|].
      cbn [skipn nth]. apply IH. lia. }
    rewrite SK. destruct L as [|L']; [lia|]. cbn [firstn]. replace (S L' - 1) with L' by lia. reflexivity. }
  rewrite E, fold_left_app. apply pure. rewrite firstn_length, skipn_length. lia.
Qed.

Lemma filter_nth_map : forall (sl : list (bool * In)) k, k <= length sl ->
  map (fun j => f (nth j (map snd sl) (snd (nth 0 sl (false, nth 0 (map snd sl) (pai_data _ (i 0)))))))
      (filter (fun j => nth j (map fst sl) false) (seq 0 k)) =
  map f (map snd (filter fst (firstn k sl))).
Proof.
  intros sl k. set (d := snd _). clearbody d. induction k as [|k IH]; intros H; [reflexivity|].
  rewrite seq_S, filter_app, map_app, IH by lia. cbn [plus filter].
  assert (E : firstn (S k) sl = firstn k sl ++ [(nth k (map fst sl) false, nth k (map snd sl) d)]).
  { clear - H. revert sl H. induction k as [|k IH]; intros [|[v x] sl] H; cbn in H; try lia; [reflexivity|].
    change (firstn (S (S k)) ((v, x) :: sl)) with ((v, x) :: firstn (S k) sl). rewrite IH by lia. reflexivity. }
  rewrite E, filter_app, !map_app. f_equal. cbn [filter fst].
  destruct (nth k (map fst sl) false); reflexivity.
Qed.

Lemma pa_outputs_pure : forall n,
  pa_outputs n = map f (map snd (filter fst (firstn (length (pa_slots n) - L) (pa_slots n)))).
Proof.
  intros n. rewrite pa_outputs_general. set (sl := pa_slots n). rewrite <- filter_nth_map by lia.
  apply map_ext_in. intros j Hj. apply filter_In in Hj as [Hj _]. apply in_seq in Hj.
  apply pure_at. rewrite map_length. lia.
Qed.

Lemma filter_length_le' : forall (A : Type) (g : A -> bool) l, length (filter g l) <= length l.
Proof. intros A g. induction l as [|a l IH]; cbn; [lia|]. destruct (g a); cbn; lia. Qed.

(** The accepted outputs are the images of the accepted inputs, in order; at most
    [L] samples are still inside. *)
Theorem pa_stream : forall n, exists rest,
  map f (pa_inputs n) = pa_outputs n ++ map f rest /\ length rest <= L.
Proof.
  intros n. exists (map snd (filter fst (skipn (length (pa_slots n) - L) (pa_slots n)))).
  rewrite pa_outputs_pure, pa_inputs_slots. split.
  - rewrite <- map_app, <- map_app, <- filter_app, firstn_skipn. reflexivity.
  - rewrite map_length. eapply Nat.le_trans; [apply filter_length_le'|]. rewrite skipn_length. lia.
Qed.
End Pipe.

(** Stability: a valid output that is not accepted is presented again. *)
Lemma pa_stable : forall St In dp s0 L (i : nat -> pa_in In) n,
  pa_source_valid St In (pa_run St In dp s0 L i n) (i n) = true -> pai_ready _ (i n) = false ->
  pa_run St In dp s0 L i (S n) = pa_run St In dp s0 L i n.
Proof.
  intros St In dp s0 L i n V R. change (pa_run St In dp s0 L i (S n)) with (pa_step St In dp (pa_run St In dp s0 L i n) (i n)).
  unfold pa_step, pa_ce. rewrite V, R. reflexivity.
Qed.

(** Latency: with the consumer always ready, the sample of clock [n] leaves in clock [n + L]. *)
Lemma pa_latency : forall St In Out dp out s0 L (i : nat -> pa_in In) f n, 0 < L ->
  (forall s x ys, S (length ys) = L -> out (fold_left dp (x :: ys) s) = f x) ->
  (forall m, pai_ready _ (i m) = true) ->
  pa_out_event St In Out out (pa_run St In dp s0 L i (n + L)) (i (n + L)) =
  (if pai_valid _ (i n) then Some (f (pai_data _ (i n))) else None).
Proof.
  intros St In Out dp out s0 L i f n HL P R.
  assert (CE : forall m, pa_ce St In (pa_run St In dp s0 L i m) (i m) = true) by (intros m; unfold pa_ce; rewrite R; reflexivity).
  assert (SL : forall m, pa_slots St In dp s0 L i m = map (fun k => (pai_valid _ (i k), pai_data _ (i k))) (seq 0 m)).
  { induction m as [|m IH]; [reflexivity|]. rewrite pa_slots_S, CE, IH, seq_S, map_app. reflexivity. }
  unfold pa_out_event. rewrite R, andb_true_r, (pa_source_valid_slots St In dp s0 L HL).
  destruct (pa_state St In dp s0 L i (n + L)) as [E _]. rewrite E, SL, map_length, seq_length.
  replace (L <=? n + L) with true by (symmetry; apply Nat.leb_le; lia). cbn [andb].
  rewrite !map_map. cbn [fst snd]. replace (n + L - L) with n by lia.
  set (nd := nth n _ false). assert (END : nd = pai_valid _ (i n)).
  { unfold nd. rewrite (nth_indep _ _ (pai_valid _ (i 0))) by (rewrite map_length, seq_length; lia).
    rewrite (map_nth (fun k => pai_valid _ (i k))). rewrite seq_nth by lia. reflexivity. }
  rewrite END. destruct (pai_valid _ (i n)); [|reflexivity]. f_equal.
  rewrite seq_app, map_app, fold_left_app. replace L with (S (L - 1)) at 1 by lia. cbn [seq map plus].
  apply P. rewrite map_length, seq_length. lia.
Qed.
