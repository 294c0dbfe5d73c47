(** C111: chroma down- and upsampling in a chain. *)
From Coq Require Import ZArith List Bool Lia Arith.
From Verif Require Import Hdl Trace DelayModel PipeModel PipeProofs CscModel ChromaProofs CscProps ResampleModel.
Import ListNotations.
Open Scope nat_scope.

(** Pixels that went in and came out in the first [n] clocks. *)
Definition rs_ins w (i : nat -> rs_in) n : list ycc :=
  collect (fun t => if rsi_valid (i t) && rs_sink_ready (rs_run w i t) (i t) then Some (rsi_pix (i t)) else None) 0 n.
Definition rs_outs w (i : nat -> rs_in) n : list ycc :=
  collect (fun t => if rs_source_valid (rs_run w i t) && rsi_ready (i t) then Some (rs_source (rs_run w i t)) else None) 0 n.

(** What is expected of an image: luma kept, chroma of a pair replaced by its mean. *)
Definition paired (im : nat -> ycc) (j : nat) : ycc :=
  let a := im (2 * (j / 2)) in let b := im (2 * (j / 2) + 1) in
  {| c_y := c_y (im j); c_cb := ((c_cb a + c_cb b) / 2)%Z; c_cr := ((c_cr a + c_cr b) / 2)%Z |}.

Section Chain.
Variables (w : Z) (i : nat -> rs_in).
Let st := rs_run w i.
Let di t := rs_pa (st t) (i t).
Let ui t := rs_us (st t) (i t).

Lemma rs_parts : forall n, pa_run _ _ (ds_step w) ds_init ds_latency di n = rs_d (st n) /\ us_run ui n = rs_u (st n).
Proof.
  induction n as [|n [A B]]; [split; reflexivity|].
  change (pa_run ds_st ds_in (ds_step w) ds_init ds_latency di (S n)) with (pa_step _ _ (ds_step w) (pa_run ds_st ds_in (ds_step w) ds_init ds_latency di n) (di n)).
  change (us_run ui (S n)) with (us_step (us_run ui n) (ui n)). rewrite A, B. split; reflexivity.
Qed.
Lemma rs_ins_ds : forall n, rs_ins w i n = map dsi_pix (ds_inputs w di n).
Proof.
  induction n as [|n IH]; [reflexivity|]. unfold rs_ins, ds_inputs, pa_inputs in *. cbn [collect]. rewrite IH, map_app. f_equal.
  cbn [plus]. destruct (rs_parts n) as [A _]. rewrite A. unfold pa_in_event, rs_sink_ready. fold (st n). fold (di n).
  change (pai_valid ds_in (di n)) with (rsi_valid (i n)). destruct (rsi_valid (i n) && _); reflexivity.
Qed.
Lemma rs_mid : forall n, us_ins ui n = ds_outputs w di n.
Proof.
  intros n. unfold us_ins, ds_outputs, pa_outputs. apply collect_ext. intros t _. destruct (rs_parts t) as [A B]. rewrite A, B. reflexivity.
Qed.
Lemma rs_outs_us : forall n, rs_outs w i n = us_outs ui n.
Proof.
  intros n. unfold rs_outs, us_outs. apply collect_ext. intros t _. destruct (rs_parts t) as [_ B]. rewrite B. reflexivity.
Qed.

(** Luma, in order, whatever the schedule; at most seven pixels are inside. *)
Lemma rs_luma : forall n, exists rest, map c_y (rs_ins w i n) = map c_y (rs_outs w i n) ++ rest /\ length rest <= 7.
Proof.
  intros n.
  assert (HL : 0 < ds_latency) by (unfold ds_latency; lia).
  (* the luma of the downsampler as a pipeline of its own *)
  assert (PU : forall s x ys, S (length ys) = ds_latency ->
     d_y (ds_out (fold_left (ds_step w) (x :: ys) s)) = c_y (dsi_pix x)).
  { intros s x ys H. unfold ds_latency in H. destruct ys as [|a [|b [|]]]; cbn in H; try discriminate. reflexivity. }
  pose proof (pa_stream ds_st ds_in Z (ds_step w) (fun s => d_y (ds_out s)) ds_init ds_latency HL di (fun x => c_y (dsi_pix x)) PU n) as [r1 [E1 L1]].
  assert (O1 : pa_outputs ds_st ds_in Z (ds_step w) (fun s => d_y (ds_out s)) ds_init ds_latency di n = map d_y (ds_outputs w di n)).
  { unfold ds_outputs, pa_outputs. clear. induction n as [|n IH]; [reflexivity|]. cbn [collect]. rewrite IH, map_app. f_equal.
    unfold pa_out_event. destruct (_ && _); reflexivity. }
  rewrite O1 in E1. fold (ds_inputs w di n) in E1.
  destruct (C46_upsampling ui n) as (E2 & L2 & L3). rewrite <- rs_outs_us, rs_mid in *.
  rewrite rs_ins_ds, map_map. rewrite E1. remember (length (rs_outs w i n)) as N eqn:EN.
  exists (skipn N (map d_y (ds_outputs w di n)) ++ map (fun x => c_y (dsi_pix x)) r1). split.
  - rewrite app_assoc. f_equal. rewrite <- (firstn_skipn N (map d_y (ds_outputs w di n))) at 1. f_equal.
    pose proof (Nat.mul_div_le (length (ds_outputs w di n)) 2 ltac:(lia)) as D. rewrite E2, map_map. cbn [c_y]. clear E2 EN.
    apply (nth_ext _ _ 0%Z 0%Z).
    + rewrite firstn_length, !map_length, seq_length. lia.
    + intros j J. rewrite firstn_length, map_length in J. rewrite nth_map_seq by lia.
      rewrite <- (firstn_skipn N (ds_outputs w di n)) at 2.
      rewrite firstn_map, app_nth1 by (rewrite firstn_length; lia). change 0%Z with (d_y yc2_null). apply map_nth.
  - rewrite app_length, skipn_length, !map_length. unfold ds_latency in L1. lia.
Qed.
End Chain.

Lemma collect_at : forall (A : Type) (f : nat -> option A) d n k, k < length (collect f 0 n) ->
  exists t, t < n /\ f t = Some (nth k (collect f 0 n) d) /\ length (collect f 0 t) = k.
Proof.
  intros A f d. induction n as [|n IH]; intros k K; [cbn in K; lia|]. cbn [collect plus] in *. rewrite app_length in K.
  destruct (Nat.lt_ge_cases k (length (collect f 0 n))) as [L|L].
  - destruct (IH k L) as (t & T & E & Q). exists t. rewrite app_nth1 by exact L. auto.
  - destruct (f n) eqn:F; cbn [length] in K; [|lia]. exists n. rewrite app_nth2 by exact L.
    replace (k - length (collect f 0 n)) with 0 by lia. cbn [nth]. repeat split; [lia|exact F|lia].
Qed.
Lemma collect_mono : forall (A : Type) (f : nat -> option A) a b, a <= b -> length (collect f 0 a) <= length (collect f 0 b).
Proof. intros A f a b H. replace b with (a + (b - a)) by lia. rewrite collect_app, app_length. lia. Qed.
Lemma half_even : forall k j, Nat.even k = true -> (k + j) / 2 = k / 2 + j / 2 /\ k = 2 * (k / 2).
Proof.
  intros k j E. apply Nat.even_spec in E as [q ->]. rewrite (Nat.mul_comm 2 q), Nat.div_add_l, Nat.div_mul by lia. lia.
Qed.

(** Components in range, as signals of [w] bits are. *)
Definition rs_range w (i : nat -> rs_in) : Prop :=
  forall t, (0 <= c_cb (rsi_pix (i t)) < 2 ^ w /\ 0 <= c_cr (rsi_pix (i t)) < 2 ^ w)%Z.

(** With [first] driven: an image delivered without gaps between the clocks [t1] and [t2], [first] with its pixel 0,
    after an even number of pixels; whatever comes before and after. *)
Theorem C111_chain_partial : forall w i n t1 t2, (0 <= w)%Z -> rs_range w i -> t1 <= t2 <= n ->
  let k0 := length (rs_ins w i t1) in let m := length (rs_ins w i t2) - k0 in
  (forall t, t1 <= t < t2 -> rsi_valid (i t) = true /\ rsi_first (i t) = (length (rs_ins w i t) =? k0)) ->
  Nat.even k0 = true ->
  forall j, 2 * (j / 2) + 1 < m -> k0 + j < length (rs_outs w i n) ->
  nth (k0 + j) (rs_outs w i n) ycc0 = paired (fun j => nth (k0 + j) (rs_ins w i n) ycc0) j.
Proof.
  intros w i n t1 t2 W R T k0 m P EV j J L.
  set (di := fun t => rs_pa (rs_run w i t) (i t)). set (ui := fun t => rs_us (rs_run w i t) (i t)).
  assert (LI : forall t, length (ds_inputs w di t) = length (rs_ins w i t)) by (intros t; rewrite rs_ins_ds, map_length; reflexivity).
  pose proof (C45_downsampling_stream_partial w di n t1 t2 W T ltac:(intros t H; apply (proj1 (P t H))) R) as C. cbv zeta in C. rewrite !LI in C. fold k0 m in C.
  assert (FA : forall k, k < m -> dsi_first (nth (k0 + k) (ds_inputs w di n) ds_null) = (k =? 0)).
  { intros k K. assert (KN : k0 + k < length (ds_inputs w di n)).
    { rewrite LI. unfold m in K. pose proof (collect_mono _ (fun t => if rsi_valid (i t) && rs_sink_ready (rs_run w i t) (i t) then Some (rsi_pix (i t)) else None) t2 n ltac:(lia)).
      unfold rs_ins in *. lia. }
    assert (CA : exists t, t < n /\ pa_in_event _ _ (pa_run _ _ (ds_step w) ds_init ds_latency di t) (di t) = Some (nth (k0 + k) (ds_inputs w di n) ds_null) /\ length (ds_inputs w di t) = k0 + k)
      by exact (collect_at _ _ ds_null n (k0 + k) KN).
    destruct CA as (t & TN & E & Q).
    rewrite LI in Q.
    assert (IS : ds_inputs w di (S t) = ds_inputs w di t ++ match pa_in_event _ _ (pa_run _ _ (ds_step w) ds_init ds_latency di t) (di t) with Some v => [v] | None => [] end) by reflexivity.
    assert (T12 : t1 <= t < t2).
    { pose proof (collect_mono _ (fun t => if rsi_valid (i t) && rs_sink_ready (rs_run w i t) (i t) then Some (rsi_pix (i t)) else None)) as MO.
      split.
      - destruct (Nat.le_gt_cases t1 t) as [|G]; [assumption|]. exfalso.
        pose proof (MO (S t) t1 ltac:(lia)) as M1. fold (rs_ins w i t1) in M1. fold k0 in M1. fold (rs_ins w i (S t)) in M1. rewrite <- LI in M1.
        rewrite IS, app_length, E in M1. cbn [length] in M1. rewrite LI in M1. lia.
      - destruct (Nat.le_gt_cases t2 t) as [G|]; [|assumption]. exfalso.
        pose proof (MO t2 t G) as M1. fold (rs_ins w i t2) in M1. fold (rs_ins w i t) in M1. unfold m in K. lia. }
    clear IS. remember (nth (k0 + k) (ds_inputs w di n) ds_null) as v eqn:Ev. clear Ev. unfold pa_in_event in E. destruct (_ && _); [|discriminate]. injection E as E. rewrite <- E.
    cbn [di rs_pa pai_data dsi_first]. rewrite (proj2 (P t T12)), Q.
    destruct (Nat.eqb_spec k 0) as [->|N]; [rewrite Nat.add_0_r; apply Nat.eqb_refl|apply Nat.eqb_neq; lia]. }
  assert (F0 : dsi_first (nth k0 (ds_inputs w di n) ds_null) = true).
  { pose proof (FA 0 ltac:(lia)) as F. rewrite Nat.add_0_r in F. exact F. }
  specialize (C F0 ltac:(intros k K O; rewrite FA by exact K; destruct k; [discriminate O|reflexivity]) (j / 2) J) as [C1 C2].
  destruct (C46_upsampling ui n) as (E & L2 & _).
  pose proof (rs_mid w i n) as EM. cbv zeta beta in EM. fold di ui in EM.
  pose proof (rs_outs_us w i n) as EO. cbv zeta beta in EO. fold ui in EO.
  rewrite <- EO, EM in E, L2.
  pose proof (rs_ins_ds w i n) as EI. cbv zeta beta in EI. fold di in EI.
  remember (length (rs_outs w i n)) as N eqn:EN. rewrite E. rewrite nth_map_seq by exact L.
  destruct (half_even k0 j EV) as [Hh Hk]. rewrite Hh.
  assert (PA : forall k, dsi_pix (nth k (ds_inputs w di n) ds_null) = nth k (rs_ins w i n) ycc0).
  { intros k. rewrite EI. change ycc0 with (dsi_pix ds_null). symmetry. apply map_nth. }
  rewrite !PA in C1, C2.
  pose proof (Nat.div_mod_eq j 2) as DM. pose proof (Nat.mod_upper_bound j 2 ltac:(lia)) as MB.
  pose proof (Nat.mul_div_le (length (ds_outputs w di n)) 2 ltac:(lia)) as ML.
  assert (B1 : k0 + 2 * (j / 2) + 1 < length (ds_outputs w di n)).
  { assert (Q : (k0 + j) / 2 < length (ds_outputs w di n) / 2) by (apply Nat.div_lt_upper_bound; lia). rewrite Hh in Q. lia. }
  specialize (C1 ltac:(lia)). specialize (C2 B1). change {| d_y := 0%Z; d_c := 0%Z |} with yc2_null in C1, C2.
  replace (2 * (k0 / 2 + j / 2)) with (k0 + 2 * (j / 2)) by lia. rewrite C1, C2. cbn [d_c]. unfold paired.
  replace (k0 + (2 * (j / 2) + 1)) with (k0 + 2 * (j / 2) + 1) in * by lia. f_equal.
  destruct (Nat.eq_dec (j mod 2) 0) as [Z0|Z1].
  - replace j with (2 * (j / 2)) at 1 by lia. rewrite C1. cbn [d_y]. do 2 f_equal. lia.
  - replace (k0 + j) with (k0 + 2 * (j / 2) + 1) by lia. rewrite C2. cbn [d_y]. do 2 f_equal. 
Qed.

(** As the bench connects them: [first] never driven.  It works when the image starts in an even clock. *)
Section Bench.
Variables (w : Z) (i : nat -> rs_in) (t1 : nat).
Hypothesis NF : forall t, rsi_first (i t) = false.
Hypothesis IDLE : forall t, t < t1 -> rsi_valid (i t) = false.
Hypothesis EVEN : Nat.even t1 = true.
Let i' t := {| rsi_valid := rsi_valid (i t); rsi_pix := rsi_pix (i t); rsi_first := t =? t1; rsi_ready := rsi_ready (i t) |}.
Lemma bench_same : forall t, rs_run w i t = rs_run w i' t /\
  (t <= t1 -> pa_v _ (rs_d (rs_run w i t)) = [false; false; false] /\ ds_par (pa_dp _ (rs_d (rs_run w i t))) = Nat.odd t).
Proof.
  induction t as [|t [A B]]; [split; [reflexivity|split; reflexivity]|].
  change (rs_run w i (S t)) with (rs_step w (rs_run w i t) (i t)). change (rs_run w i' (S t)) with (rs_step w (rs_run w i' t) (i' t)). rewrite <- A.
  set (s := rs_run w i t) in *. split.
  - unfold rs_step. f_equal. unfold pa_step.
    change (pa_ce ds_st ds_in (rs_d s) (rs_pa s (i' t))) with (pa_ce ds_st ds_in (rs_d s) (rs_pa s (i t))).
    destruct (pa_ce ds_st ds_in (rs_d s) (rs_pa s (i t))); [|reflexivity]. f_equal. unfold ds_step. cbn [rs_pa pai_data dsi_first dsi_pix i' rsi_first rsi_pix]. f_equal.
    rewrite NF. destruct (Nat.eqb_spec t t1) as [->|]; [|reflexivity]. destruct (B (le_n _)) as [_ ->]. rewrite <- Nat.negb_even, EVEN. reflexivity.
  - intros T. destruct (B ltac:(lia)) as [V P]. unfold rs_step. cbn [rs_d]. unfold pa_step, pa_ce, pa_source_valid, dly_out. rewrite V. cbn [last rs_pa pai_ready negb]. rewrite orb_true_r.
    cbn [pa_v pa_dp rs_pa pai_valid dly_step pai_data]. rewrite IDLE by lia. split; [reflexivity|]. unfold ds_step. cbn [ds_par dsi_first]. rewrite NF, P, Nat.odd_succ, <- Nat.negb_even. cbn [orb]. apply negb_involutive.
Qed.
End Bench.
Theorem C111_bench_partial : forall w i n t1 t2, (0 <= w)%Z -> rs_range w i -> t1 <= t2 <= n ->
  (forall t, rsi_first (i t) = false) -> (forall t, t < t1 -> rsi_valid (i t) = false) ->
  (forall t, t1 <= t < t2 -> rsi_valid (i t) = true) -> Nat.even t1 = true ->
  forall j, 2 * (j / 2) + 1 < length (rs_ins w i t2) -> j < length (rs_outs w i n) ->
  nth j (rs_outs w i n) ycc0 = paired (fun j => nth j (rs_ins w i n) ycc0) j.
Proof.
  intros w i n t1 t2 W R T NF IDLE V EV j J L.
  set (i' := fun t => {| rsi_valid := rsi_valid (i t); rsi_pix := rsi_pix (i t); rsi_first := t =? t1; rsi_ready := rsi_ready (i t) |}).
  assert (RUN : forall t, rs_run w i t = rs_run w i' t) by (intros t; apply (bench_same w i t1 NF IDLE EV t)).
  assert (IN : forall u, rs_ins w i' u = rs_ins w i u) by (intros u; unfold rs_ins; apply collect_ext; intros t _; rewrite RUN; reflexivity).
  assert (OUT : forall u, rs_outs w i' u = rs_outs w i u) by (intros u; unfold rs_outs; apply collect_ext; intros t _; rewrite RUN; reflexivity).
  assert (Z0 : forall t, t <= t1 -> rs_ins w i t = []).
  { induction t as [|t IH]; intros H; [reflexivity|]. change (rs_ins w i (S t)) with (rs_ins w i t ++ match (if rsi_valid (i t) && rs_sink_ready (rs_run w i t) (i t) then Some (rsi_pix (i t)) else None) with Some v => [v] | None => [] end).
    rewrite IH, IDLE by lia. reflexivity. }
  assert (Z1 : forall t, t1 < t -> 1 <= length (rs_ins w i t)).
  { intros t H. pose proof (collect_mono _ (fun t => if rsi_valid (i t) && rs_sink_ready (rs_run w i t) (i t) then Some (rsi_pix (i t)) else None) (S t1) t H) as M.
    fold (rs_ins w i t) in M. cbn [collect plus] in M. fold (rs_ins w i t1) in M. rewrite (Z0 t1 (le_n _)) in M. cbn [app] in M.
    assert (RD : rs_sink_ready (rs_run w i t1) (i t1) = true).
    { destruct (bench_same w i t1 NF IDLE EV t1) as [_ B]. destruct (B (le_n _)) as [B1 _]. unfold rs_sink_ready, pa_sink_ready, pa_ce, pa_source_valid, dly_out. rewrite B1. apply orb_true_r. }
    rewrite RD in M. destruct (Nat.lt_ge_cases t1 t2) as [Q|Q].
    - rewrite (V t1) in M by lia. exact M.
    - replace t2 with t1 in J by lia. rewrite (Z0 t1) in J by lia. cbn in J. lia. }
  pose proof (C111_chain_partial w i' n t1 t2 W R T) as C. cbv zeta in C. rewrite !IN, OUT, (Z0 t1 (le_n _)) in C. cbn [length plus] in C.
  apply C; [|reflexivity|lia|exact L]. intros t H. split; [apply V; exact H|]. cbn [i' rsi_first]. rewrite IN.
  destruct (Nat.eqb_spec t t1) as [->|N]; [rewrite (Z0 t1 (le_n _)); reflexivity|]. symmetry. apply Nat.eqb_neq. specialize (Z1 t ltac:(lia)). lia.
Qed.

(** Full statement for the bench: the image comes out paired whenever it starts.  False: in an odd clock the
    pairs are the wrong ones and cb and cr are exchanged. *)
Definition ex_rs (d : nat) (t : nat) : rs_in :=
  {| rsi_valid := d <=? t; rsi_pix := {| c_y := 10 + Z.of_nat (t - d); c_cb := 40 + 10 * Z.of_nat (t - d); c_cr := 140 + 10 * Z.of_nat (t - d) |}%Z;
     rsi_first := false; rsi_ready := true |}.
Theorem C111_bench_refuted : exists i n t1,
  (forall t, rsi_first (i t) = false /\ rsi_valid (i t) = (t1 <=? t) /\ rsi_ready (i t) = true) /\
  2 <= length (rs_outs 8 i n) /\
  nth 0 (rs_outs 8 i n) ycc0 <> paired (fun j => nth j (rs_ins 8 i n) ycc0) 0 /\
  c_cb (nth 2 (rs_outs 8 i n) ycc0) = ((c_cr (nth 1 (rs_ins 8 i n) ycc0) + c_cr (nth 2 (rs_ins 8 i n) ycc0)) / 2)%Z.
Proof.
  exists (ex_rs 1), 12, 1. split; [intros t; repeat split|]. vm_compute. repeat split; try lia. discriminate.
Qed.

(** Luma is kept in order under every schedule, and at most seven pixels are inside. *)
Theorem C111_luma_partial : forall w i n, exists rest,
  map c_y (rs_ins w i n) = map c_y (rs_outs w i n) ++ rest /\ length rest <= 7.
Proof. exact rs_luma. Qed.
(** The chain takes a pixel or offers one, in every state. *)
Theorem C111_no_deadlock_partial : forall w i n,
  rs_sink_ready (rs_run w i n) (i n) = true \/ rs_source_valid (rs_run w i n) = true.
Proof.
  intros w i n. destruct (rs_parts w i n) as [_ B]. cbv zeta beta in B.
  destruct (C46_no_deadlock (fun t => rs_us (rs_run w i t) (i t)) n) as [D|D]; rewrite B in D; [left|right; exact D].
  unfold rs_sink_ready, pa_sink_ready, pa_ce. cbn [rs_pa pai_ready]. rewrite D. reflexivity.
Qed.
(** The hypotheses are met: an image of eight pixels from clock 2 on, the consumer pausing. *)
Definition ex_rs2 (t : nat) : rs_in :=
  let x := ex_rs 2 t in {| rsi_valid := rsi_valid x; rsi_pix := rsi_pix x; rsi_first := false; rsi_ready := negb (t =? 9) |}.
Example C111_ex : rs_range 8 (fun t => ex_rs2 (Nat.min t 12)) /\ length (rs_ins 8 ex_rs2 12) = 10 /\
  nth 1 (rs_outs 8 ex_rs2 12) ycc0 = {| c_y := 11; c_cb := 45; c_cr := 145 |}%Z.
Proof.
  split; [|vm_compute; auto]. intros t. do 13 (destruct t as [|t]; [vm_compute; repeat split; discriminate || reflexivity|]).
  replace (Nat.min (S (S (S (S (S (S (S (S (S (S (S (S (S t))))))))))))) 12) with 12 by lia. vm_compute. repeat split; discriminate || reflexivity.
Qed.
(** With [first]: two pixels before, then a gap, then the image. *)
Definition ex_rs3 (t : nat) : rs_in :=
  {| rsi_valid := (t <? 2) || (4 <? t); rsi_pix := rsi_pix (ex_rs 5 t); rsi_first := t =? 5; rsi_ready := Nat.odd t |}.
Example C111_ex3 : (forall t, 5 <= t < 9 -> rsi_valid (ex_rs3 t) = true /\ rsi_first (ex_rs3 t) = (length (rs_ins 8 ex_rs3 t) =? length (rs_ins 8 ex_rs3 5))) /\
  length (rs_ins 8 ex_rs3 5) = 2 /\ length (rs_ins 8 ex_rs3 9) = 6 /\ nth 3 (rs_outs 8 ex_rs3 17) ycc0 = {| c_y := 11; c_cb := 45; c_cr := 145 |}%Z.
Proof.
  split; [|vm_compute; auto]. intros t H.
  assert (C : t = 5 \/ t = 6 \/ t = 7 \/ t = 8) by lia. destruct C as [-> |[-> |[-> | ->]]]; vm_compute; auto.
Qed.

Print Assumptions C111_chain_partial.
Print Assumptions C111_bench_partial.
Print Assumptions C111_bench_refuted.
Print Assumptions C111_luma_partial.
Print Assumptions C111_no_deadlock_partial.
