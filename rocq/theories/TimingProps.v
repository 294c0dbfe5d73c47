(** C31-C33 and C66: the video timing generator. *)
From Coq Require Import ZArith List Bool Lia.
From Verif Require Import Hdl Trace TimingModel TimingSpec TimingProofs.
Import ListNotations.
Open Scope Z_scope.

(** Clocks accepted by the consumer before clock [n]. *)
Definition accepted (i : nat -> tg_in) (n : nat) : Z :=
  Z.of_nat (occurrences (fun m => tgi_ready (i m)) 0 n).
Definition constant_params (p : fparam) (i : nat -> tg_in) : Prop :=
  forall n, tgi_valid (i n) = true /\ tgi_p (i n) = p.

(** (de, hsync, vsync) shown in clock [n]. *)
Definition shown (i : nat -> tg_in) (n : nat) : bool * bool * bool :=
  let s := tg_run i n in (tg_de (tgi_valid (i n)) s, t_hs s, t_vs s).

(** C31.  Before the first accepted clock everything is low; then the point
    of frame [f], line [y], column [x] is shown in the clocks with accepted count
    [1 + (f*(vscan+1) + y)*(hscan+1) + x]: frames follow each other every
    [(hscan+1)*(vscan+1)] accepted clocks. *)
Theorem C31_timing_geometry : forall p i, params_ok p -> constant_params p i ->
  forall n,
  (accepted i n = 0 -> shown i n = (false, false, false)) /\
  (forall f y x, 0 <= f -> 0 <= y < p_vscan p + 1 -> 0 <= x < p_hscan p + 1 ->
   accepted i n = 1 + (f * (p_vscan p + 1) + y) * (p_hscan p + 1) + x ->
   shown i n = ((x <? p_hres p) && (y <? p_vres p),
                (p_hs_start p <=? x) && (x <? p_hs_end p),
                (p_vs_start p <=? y) && (y <? p_vs_end p))).
Proof.
  intros p i ok Hi n. unfold shown. rewrite (tg_run_at p ok i Hi n). fold (accepted i n).
  destruct (Hi n) as [-> _]. split.
  - intros ->. rewrite tg_at_0 by exact ok. reflexivity.
  - intros f y x Hf Hy Hx ->.
    replace (1 + (f * (p_vscan p + 1) + y) * (p_hscan p + 1) + x)
      with ((f * (p_vscan p + 1) + y) * (p_hscan p + 1) + x + 1) by lia.
    destruct (point_xy p f y x Hf ltac:(lia) ltac:(lia)) as [A B]. cbv zeta in A, B.
    unfold tg_at, tg_de, spec_hsync, spec_vsync. cbn [t_hact t_vact t_hs t_vs].
    set (k := (f * (p_vscan p + 1) + y) * (p_hscan p + 1) + x) in *.
    assert (0 <= k) by (unfold k; destruct ok; nia).
    replace (k + 1 - 1) with k by lia. rewrite A, B.
    replace (1 <=? k + 1) with true by (symmetry; apply Z.leb_le; lia). reflexivity.
Qed.

(** Every clock with a non-zero accepted count shows a point of some frame. *)
Theorem C31_every_clock_is_a_point : forall p i n, params_ok p -> 0 < accepted i n ->
  exists f y x, 0 <= f /\ 0 <= y < p_vscan p + 1 /\ 0 <= x < p_hscan p + 1 /\
  accepted i n = 1 + (f * (p_vscan p + 1) + y) * (p_hscan p + 1) + x.
Proof.
  intros p i n ok H. destruct ok. set (k := accepted i n - 1).
  exists (k / (p_hscan p + 1) / (p_vscan p + 1)), ((k / (p_hscan p + 1)) mod (p_vscan p + 1)), (k mod (p_hscan p + 1)).
  assert (0 <= k) by lia.
  split; [apply Z.div_pos; [apply Z.div_pos|]; lia|].
  split; [apply Z.mod_pos_bound; lia|]. split; [apply Z.mod_pos_bound; lia|].
  pose proof (Z.div_mod k (p_hscan p + 1) ltac:(lia)) as D1.
  pose proof (Z.div_mod (k / (p_hscan p + 1)) (p_vscan p + 1) ltac:(lia)) as D2. lia.
Qed.

(** C32.  What is shown depends only on how many clocks were accepted before:
    two consumers with different ready schedules see the same sequence. *)
Theorem C32_stall_independent : forall p i j, params_ok p ->
  constant_params p i -> constant_params p j ->
  forall m n, accepted i m = accepted j n -> shown i m = shown j n.
Proof.
  intros p i j ok Hi Hj m n E. unfold shown, accepted in *.
  rewrite (tg_run_at p ok i Hi), (tg_run_at p ok j Hj), E. destruct (Hi m) as [-> _], (Hj n) as [-> _]. reflexivity.
Qed.

(** The sequence delivered on accepted clocks, as a list: the longer of two runs extends the other. *)
Definition delivered (i : nat -> tg_in) (n : nat) : list (bool * bool * bool) :=
  collect (fun m => if tgi_ready (i m) then Some (shown i m) else None) 0 n.

Lemma delivered_spec : forall p i, params_ok p -> constant_params p i -> forall j, constant_params p j ->
  (forall n, tgi_ready (j n) = true) ->
  forall n, delivered i n = map (shown j) (seq 0 (Z.to_nat (accepted i n))).
Proof.
  intros p i ok Hi j Hj Rj. induction n as [|n IH]; [reflexivity|].
  unfold delivered, accepted in *. cbn [collect occurrences plus]. rewrite IH. rewrite !Nat2Z.id.
  destruct (tgi_ready (i n)) eqn:R.
  - rewrite seq_app, map_app. f_equal. cbn [seq map]. f_equal.
    apply (C32_stall_independent p i j ok Hi Hj). unfold accepted. f_equal.
    clear - Rj. generalize (occurrences (fun m => tgi_ready (i m)) 0 n). intros k.
    rewrite (occurrences_ext _ (fun _ => true) 0 (0 + k) ltac:(intros; apply Rj)).
    cbn [plus]. induction k as [|k IH]; [reflexivity|]. cbn [occurrences]. lia.
  - rewrite Nat.add_0_r, app_nil_r. reflexivity.
Qed.

Theorem C32_delivered_sequence : forall p i j, params_ok p ->
  constant_params p i -> constant_params p j ->
  forall m n, accepted i m = accepted j n -> delivered i m = delivered j n.
Proof.
  intros p i j ok Hi Hj m n E.
  set (z := fun _ : nat => {| tgi_valid := true; tgi_ready := true; tgi_p := p |}).
  assert (Hz : constant_params p z) by (intro; split; reflexivity).
  rewrite (delivered_spec p i ok Hi z Hz (fun _ => eq_refl)), (delivered_spec p j ok Hj z Hz (fun _ => eq_refl)), E.
  reflexivity.
Qed.

(** C33.  The parameter request is raised in clock [n] exactly when the clock
    is accepted and a whole number of frames, at least one, was accepted before. *)
Theorem C33_request_once_per_frame : forall p i, params_ok p -> constant_params p i ->
  forall n,
  tg_sink_ready (tgi_ready (i n)) (tg_run i n) = true <->
  tgi_ready (i n) = true /\
  exists f, 0 < f /\ accepted i n = f * ((p_hscan p + 1) * (p_vscan p + 1)).
Proof.
  intros p i ok Hi n. rewrite (tg_run_at p ok i Hi n). fold (accepted i n).
  unfold tg_sink_ready. cbn [tg_at t_last]. rewrite andb_true_iff.
  assert (P : 0 < (p_hscan p + 1) * (p_vscan p + 1)) by (destruct ok; nia).
  assert (N : 0 <= accepted i n) by (unfold accepted; lia).
  split; intros [R H]; (split; [exact R|]).
  - apply andb_true_iff in H as [A B]. apply Z.leb_le in A. unfold spec_last in B.
    apply Z.eqb_eq in B. replace (accepted i n - 1 + 1) with (accepted i n) in B by lia.
    exists (accepted i n / ((p_hscan p + 1) * (p_vscan p + 1))).
    pose proof (Z.div_mod (accepted i n) ((p_hscan p + 1) * (p_vscan p + 1)) ltac:(lia)). split; nia.
  - destruct H as (f & F & E). rewrite E. apply andb_true_iff. split; [apply Z.leb_le; nia|].
    unfold spec_last. apply Z.eqb_eq.
    replace (f * ((p_hscan p + 1) * (p_vscan p + 1)) - 1 + 1) with (f * ((p_hscan p + 1) * (p_vscan p + 1))) by lia.
    apply Z.mod_mul. lia.
Qed.

(** Hence: between consecutive requests exactly one frame is accepted. *)
Theorem C33_requests_counted : forall p i, params_ok p -> constant_params p i ->
  forall n, Z.of_nat (occurrences (fun m => tg_sink_ready (tgi_ready (i m)) (tg_run i m)) 0 n) =
    Z.max 0 ((accepted i n - 1) / ((p_hscan p + 1) * (p_vscan p + 1))).
Proof.
  intros p i ok Hi n. assert (P : 0 < (p_hscan p + 1) * (p_vscan p + 1)) by (destruct ok; nia).
  set (N := (p_hscan p + 1) * (p_vscan p + 1)) in *.
  induction n as [|n IH].
  - cbn [occurrences]. unfold accepted. cbn [occurrences]. rewrite Z.max_l; [reflexivity|].
    apply Z.lt_le_incl. apply Z.div_lt_upper_bound; lia.
  - cbn [occurrences plus]. rewrite Nat2Z.inj_add, IH.
    pose proof (C33_request_once_per_frame p i ok Hi n) as Q. fold N in Q.
    assert (EA : accepted i (S n) = accepted i n + (if tgi_ready (i n) then 1 else 0)).
    { unfold accepted. cbn [occurrences plus]. rewrite Nat2Z.inj_add. destruct (tgi_ready (i n)); reflexivity. }
    rewrite EA. assert (A0 : 0 <= accepted i n) by (unfold accepted; lia).
    destruct (tgi_ready (i n)) eqn:R.
    2:{ unfold tg_sink_ready in *. cbn [andb]. rewrite !Z.add_0_r. reflexivity. }
    replace (accepted i n + 1 - 1) with (accepted i n - 1 + 1) by lia.
    destruct (Z.eq_dec (accepted i n) 0) as [Z0 | Z0].
    { rewrite Z0 in *. replace (0 - 1 + 1) with 0 by lia. rewrite Z.div_0_l by lia.
      rewrite (Z.max_l 0 ((0 - 1) / N)) by (apply Z.lt_le_incl, Z.div_lt_upper_bound; lia).
      destruct (tg_sink_ready true (tg_run i n)); [|reflexivity].
      destruct (proj1 Q eq_refl) as (_ & f & F1 & F2). nia. }
    destruct (mod_succ (accepted i n - 1) N P ltac:(lia)) as [EM ED]. rewrite ED.
    pose proof (Z.div_pos (accepted i n - 1) N ltac:(lia) P) as DP.
    pose proof (Z.div_mod (accepted i n - 1) N ltac:(lia)) as DM.
    pose proof (Z.mod_pos_bound (accepted i n - 1) N P) as MB.
    destruct (Z.eqb_spec ((accepted i n - 1) mod N) (N - 1)) as [E | E].
    + destruct (tg_sink_ready true (tg_run i n)); [rewrite !Z.max_r by lia; reflexivity|].
      exfalso. assert (X : false = true); [|discriminate]. apply Q. split; [reflexivity|].
      exists ((accepted i n - 1) / N + 1). split; [lia|]. nia.
    + destruct (tg_sink_ready true (tg_run i n)); [|rewrite !Z.max_r by lia; lia].
      exfalso. destruct (proj1 Q eq_refl) as (_ & f & F1 & F2).
      assert (DU : (accepted i n - 1) / N = f - 1) by (symmetry; apply (Z.div_unique _ _ _ (N - 1)); lia). nia.
Qed.

(** C66.  Whatever happened before, after a clock without parameters the scan
    restarts at the top left: de is exact from the first accepted clock, hsync from
    column hsync_end of the first line on and vsync from line vsync_end on, and no
    request is raised after the first accepted clock before a whole frame was. *)
Theorem C66_restart : forall p i m, params_ok p ->
  tgi_valid (i m) = false ->
  (forall n, (m < n)%nat -> tgi_valid (i n) = true /\ tgi_p (i n) = p) ->
  forall n, let a := Z.of_nat (occurrences (fun t => tgi_ready (i t)) (S m) n) in
  let s := tg_run i (S m + n) in
  tg_de true s = (1 <=? a) && spec_de p (a - 1) /\
  (p_hs_end p < a -> t_hs s = spec_hsync p (a - 1)) /\
  (p_vs_end p * (p_hscan p + 1) < a -> t_vs s = spec_vsync p (a - 1)) /\
  (0 < a -> t_last s = true -> exists f, 0 < f /\ a = f * ((p_hscan p + 1) * (p_vscan p + 1))).
Proof.
  intros p i m ok Hm Hi n a s. destruct (tg_restart p ok i m Hm Hi n) as (R1 & R2 & R3 & R4 & R5 & R6 & R7).
  fold a in R1, R2, R3, R4, R5, R6, R7. fold s in R1, R2, R3, R4, R5, R6, R7. assert (A : 0 <= a) by (unfold a; lia).
  assert (P : 0 < (p_hscan p + 1) * (p_vscan p + 1)) by (destruct ok; nia).
  unfold tg_de. rewrite R1, R2. cbn [tg_at t_hact t_vact t_hs t_vs t_last] in *. split; [|split; [|split]].
  - unfold spec_de. destruct (1 <=? a); reflexivity.
  - intros H. rewrite R6 by exact H. destruct ok. replace (1 <=? a) with true by (symmetry; apply Z.leb_le; lia). reflexivity.
  - intros H. rewrite R7 by exact H. destruct ok. replace (1 <=? a) with true by (symmetry; apply Z.leb_le; nia). reflexivity.
  - intros H L. rewrite R5 in L by lia. apply andb_true_iff in L as [_ L]. unfold spec_last in L. apply Z.eqb_eq in L.
    replace (a - 1 + 1) with a in L by lia. exists (a / ((p_hscan p + 1) * (p_vscan p + 1))).
    pose proof (Z.div_mod a ((p_hscan p + 1) * (p_vscan p + 1)) ltac:(lia)). split; nia.
Qed.

(** The sync outputs are not cleared by a stop: with parameters removed during
    vertical sync, vsync stays high through the stop and into the restarted frame. *)
Definition ex_p : fparam :=
  {| p_hres := 2; p_hs_start := 2; p_hs_end := 3; p_hscan := 3;
     p_vres := 1; p_vs_start := 1; p_vs_end := 2; p_vscan := 2 |}.
Theorem C66_sync_cleared_by_stop_refuted :
  exists i m, tgi_valid (i m) = false /\
  (forall n, (n <> m) -> tgi_valid (i n) = true /\ tgi_p (i n) = ex_p /\ tgi_ready (i n) = true) /\
  t_vs (tg_run i (S m)) = true /\ t_vs (tg_run i (S m + 2)) = true /\ spec_vsync ex_p 1 = false.
Proof.
  exists (fun n => {| tgi_valid := negb (n =? 7)%nat; tgi_ready := true; tgi_p := ex_p |}), 7%nat.
  split; [reflexivity|]. split.
  - intros n H. cbn. apply Nat.eqb_neq in H. rewrite H. auto.
  - vm_compute. auto.
Qed.

(** The hypotheses are met by a standard 640x480 mode with a stalling consumer. *)
Definition ex_vga : fparam :=
  {| p_hres := 640; p_hs_start := 656; p_hs_end := 752; p_hscan := 799;
     p_vres := 480; p_vs_start := 490; p_vs_end := 492; p_vscan := 524 |}.
Definition ex_in (n : nat) : tg_in := {| tgi_valid := true; tgi_ready := Nat.odd n; tgi_p := ex_vga |}.
Example C31_hyp : params_ok ex_vga /\ constant_params ex_vga ex_in.
Proof. split; [constructor; cbn; lia | intro n; split; reflexivity]. Qed.
Example C31_case : shown ex_in 2 = (true, false, false) /\ shown ex_in 1400 = (false, true, false) /\
  delivered ex_in 4 = [(false, false, false); (true, false, false)].
Proof. vm_compute. auto. Qed.
Example C66_hyp : params_ok ex_p.
Proof. constructor; cbn; lia. Qed.

Print Assumptions C31_timing_geometry.
Print Assumptions C31_every_clock_is_a_point.
Print Assumptions C32_stall_independent.
Print Assumptions C32_delivered_sequence.
Print Assumptions C33_request_once_per_frame.
Print Assumptions C33_requests_counted.
Print Assumptions C66_restart.
Print Assumptions C66_sync_cleared_by_stop_refuted.
