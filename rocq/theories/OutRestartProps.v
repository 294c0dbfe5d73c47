(** C91: switching the video output off and on again. *)
From Coq Require Import ZArith List Bool Lia Arith.
From Verif Require Import Hdl Trace CdcProofs TimingModel TimingSpec TimingProofs VideoOutModel VideoOutProofs
  HdmiModel LinkModel FifoModel FifoProofs FifoProps PhyModel PhyProps OutTopModel OutTopProofs OutTopProps.
Import ListNotations.
Open Scope Z_scope.

(** The output is disabled from instant [d] to [u], for at least two clocks of the
    output, and at [u] there is no parameter set left; it is enabled again at [u],
    and from then on the registers hold [R]; [t0] is the first instant after [u]
    with a parameter set. *)
Definition enabled_again (shift aw : Z) (depth : nat) (mem : list (list Z)) (ra : Z) (i : nat -> ot_in) (d u : nat) (R : list Z) (t0 : nat) : Prop :=
  let s x := ot_ini (ot_run shift aw depth mem ra i x) in
  (d <= u <= t0)%nat /\ (forall x, (d <= x < u)%nat -> ini_en (s x) = false) /\
  (2 <= occurrences (fun x => ot_cd (i x)) d (u - d))%nat /\
  (forall x, (u <= x)%nat -> ini_en (s x) = true) /\ (forall x, (u <= x)%nat -> ini_regs (s x) = R) /\
  (forall x, (u <= x < t0)%nat -> ini_out (s x) = None) /\ ini_out (s u) = None /\ ini_out (s t0) <> None.

(** C91 as stated is false: the frame reader, which had begun to read the next
    picture, is still busy when the output is enabled again, and the picture is
    shown from where the reader is, in the later frames too. *)
Definition ex_rs_regs : list Z := [2; 3; 4; 4; 1; 1; 1; 1; 400; 8].
Definition ex_rs_in (busy : bool) (t : nat) : ot_in :=
  {| ot_sys := true; ot_cd := true;
     ot_sw := if (t <? 10)%nat then IwField t (nth t ex_rs_regs 0) else if Nat.eqb t 10 then IwEnable true
              else if Nat.eqb t 20 then IwEnable false else if Nat.eqb t 80 then IwEnable true else IwNone;
     ot_mem := negb busy || ((t <? 58) || (84 <? t))%nat; ot_ret := true; ot_ready := true; ot_mp := 0; ot_mc := 5 |}.
Definition ex_rs (busy : bool) (t : nat) : ot_st := ot_run 2 8 2 (repeat [] 4) 0 (ex_rs_in busy) t.

Lemma ex_rs_on : forall busy, enabled_again 2 8 2 (repeat [] 4) 0 (ex_rs_in busy) 21 81 ex_rs_regs 84.
Proof.
  intros busy.
  assert (AFT : forall t, (81 <= t)%nat -> ini_en (ot_ini (ex_rs busy t)) = true /\ ini_regs (ot_ini (ex_rs busy t)) = ex_rs_regs).
  { intros t T. induction T as [|t T (A & B)]; [destruct busy; vm_compute; auto|].
    change (ex_rs busy (S t)) with (ot_step 2 8 2 (ex_rs busy t) (ex_rs_in busy t)). unfold ot_step. cbv zeta. cbn [ot_ini]. unfold ini_step. cbv zeta.
    cbn [ini_en ini_regs ot_ini_in ini_sys ini_sw ex_rs_in ot_sys ot_sw].
    replace (t <? 10)%nat with false by (symmetry; apply Nat.ltb_ge; lia). replace (Nat.eqb t 10) with false by (symmetry; apply Nat.eqb_neq; lia).
    replace (Nat.eqb t 20) with false by (symmetry; apply Nat.eqb_neq; lia). replace (Nat.eqb t 80) with false by (symmetry; apply Nat.eqb_neq; lia).
    cbn [ini_write fst snd]. auto. }
  split; [lia|]. split; [|split; [|split; [|split; [|split; [|split]]]]].
  - intros x X. assert (Q : forallb (fun x => negb (ini_en (ot_ini (ex_rs busy x)))) (seq 21 60) = true) by (destruct busy; vm_compute; reflexivity).
    rewrite forallb_forall in Q. apply negb_true_iff, Q, in_seq. lia.
  - apply Nat.leb_le. destruct busy; vm_compute; reflexivity.
  - intros x X. apply AFT. exact X.
  - intros x X. apply AFT. exact X.
  - intros x X. assert (Q : forallb (fun x => match ini_out (ot_ini (ex_rs busy x)) with None => true | _ => false end) (seq 81 3) = true) by (destruct busy; vm_compute; reflexivity).
    rewrite forallb_forall in Q. specialize (Q x). fold (ex_rs busy x). destruct (ini_out (ot_ini (ex_rs busy x))); [|reflexivity].
    assert (false = true) by (apply Q, in_seq; lia). discriminate.
  - destruct busy; vm_compute; reflexivity.
  - destruct busy; vm_compute; discriminate.
Qed.
Lemma ex_rs_clocks : forall busy, clocks (ex_rs_in busy) ((p_hscan (timing_of ex_rs_regs) + 1) * (p_vscan (timing_of ex_rs_regs) + 1)) (fun n => n).
Proof.
  intros busy. split; [intros n; split; [reflexivity|apply all_edges]|]. intros a b AB H.
  change (fun x => ot_cd (ex_rs_in busy x)) with (fun _ : nat => true) in H. change (fun x => ot_sys (ex_rs_in busy x)) with (fun _ : nat => true).
  rewrite all_edges in *. cbn in H. lia.
Qed.

Theorem C91_restart_refuted :
  exists shift aw depth mem ra (i : nat -> ot_in) d u R t0 E M, length mem = 4%nat /\ enabled_again shift aw depth mem ra i d u R t0 /\
  let p := timing_of R in params_ok p /\ 0 < p_hres p * p_vres p < 2 ^ aw /\ nth 9 R 0 / 2 ^ shift = p_hres p * p_vres p /\
  clocks i ((p_hscan p + 1) * (p_vscan p + 1)) E /\ (forall x, ot_ready (i x) = true) /\
  let st := ot_run shift aw depth mem ra i in
  let o n := ot_px shift aw M 0 (st (E n)) (i (E n)) in
  let dv n := ot_dv shift aw (st (E n)) (i (E n)) in
  let n0 := occurrences (fun x => ot_cd (i x)) 0 t0 in
  forall f, 1 <= f <= 3 -> exists n, (n0 <= n)%nat /\ let held := (underflows o dv n - underflows o dv n0)%nat in
  Z.of_nat n = Z.of_nat n0 + 1 + f * (p_vscan p + 1) * (p_hscan p + 1) + Z.of_nat held /\
  px_de (o n) = true /\ dv n = true /\ px_r (o n) <> M (picture_word shift aw R 0) mod 2 ^ 8.
Proof.
  exists 2, 8, 2%nat, (repeat [] 4), 0, (ex_rs_in true), 21%nat, 81%nat, ex_rs_regs, 84%nat, (fun n => n), (fun a => a).
  split; [reflexivity|]. split; [apply ex_rs_on|]. cbv zeta.
  split; [constructor; vm_compute; repeat split; discriminate|]. split; [vm_compute; auto|]. split; [reflexivity|].
  split; [apply ex_rs_clocks|]. split; [reflexivity|]. intros f F.
  exists (Z.to_nat (87 + 10 * f)). split; [rewrite all_edges; lia|].
  assert (C : f = 1 \/ f = 2 \/ f = 3) by lia. destruct C as [C|[C|C]]; rewrite C; vm_compute; repeat split; discriminate.
Qed.
Print Assumptions C91_restart_refuted.

(** A set on offer goes away only when it is taken, and comes only at an edge of
    the output's clock. *)
Section Restart.
Variables (shift aw : Z) (depth : nat) (mem : list (list Z)) (ra : Z) (i : nat -> ot_in).
Hypothesis L : length mem = 4%nat.
Let st := ot_run shift aw depth mem ra i.
Let off t := ini_out (ot_ini (st t)).
Let ii (t : nat) : ini_in := ot_ini_in shift aw (st t) (i t).

Lemma run_ini : forall t, ot_ini (st t) = ini_run mem ra ii t.
Proof. exact (ot_ini_run shift aw depth mem ra i). Qed.
Lemma off_stays : forall t, ot_cd (i t) = false -> off t = None -> off (S t) = None.
Proof.
  intros t CD N. unfold off in *. change (st (S t)) with (ot_step shift aw depth (st t) (i t)). unfold ot_step. cbv zeta. cbn [ot_ini].
  unfold ini_out in *. unfold ini_step. cbv zeta. cbn [ini_fifo]. set (f := ini_fifo (ot_ini (st t))) in *.
  destruct (af_readable f) eqn:R; [discriminate|].
  replace (af_readable _) with (af_readable f); [rewrite R; reflexivity|].
  unfold af_readable, af_step. cbv zeta. cbn [af_p1 af_cq ai_r ot_ini_in ini_cd]. rewrite CD. reflexivity.
Qed.
Lemma off_pop : forall t v, off t = Some v -> off (S t) = None -> ot_cd (i t) = true /\ ot_rdy shift aw (st t) (i t) = true.
Proof.
  intros t v O N. unfold off in *. rewrite run_ini in O, N.
  pose proof (C78_held mem ra ii L t v O) as H. cbn [ii ot_ini_in ini_cd ini_rdy] in H.
  destruct (ot_cd (i t)), (ot_rdy shift aw (st t) (i t)); auto; exfalso; (rewrite H in N by reflexivity; discriminate).
Qed.

(** The scan is at its origin whenever the end of a frame is marked; nothing is
    marked when there is no set. *)
Lemma last_clear : forall t, (forall x v, (x < t)%nat -> off x = Some v -> nth 3 v 0 <> 0) ->
  (t_last (ot_tg (st t)) = true -> t_h (ot_tg (st t)) = 0 /\ t_v (ot_tg (st t)) = 0) /\ (off t = None -> t_last (ot_tg (st t)) = false).
Proof.
  induction t as [|t IH]; intros H; [split; [discriminate|reflexivity]|].
  destruct IH as [I1 I2]; [intros x v X; apply H; lia|].
  assert (NX : ot_tg (st (S t)) = if ot_cd (i t) then vo_step (ot_tg (st t)) (vt_vi (ot_vt shift aw (st t)) (ot_ti shift aw (st t) (i t))) else ot_tg (st t)) by reflexivity.
  destruct (ot_cd (i t)) eqn:CD.
  2:{ rewrite NX. split; [exact I1|]. intros N. destruct (off t) as [v|] eqn:O; [|auto].
      destruct (off_pop t v O N). congruence. }
  destruct (off t) as [v|] eqn:O.
  2:{ specialize (I2 eq_refl). rewrite NX. unfold vo_step, tg_step, vt_vi, ot_vt, vt_valid, vt_head. unfold off in O. rewrite O.
      cbn [vt_q vi_valid negb t_last]. split; [congruence|auto]. }
  specialize (H t v (Nat.lt_succ_diag_r t) O).
  set (V := vt_vi (ot_vt shift aw (st t)) (ot_ti shift aw (st t) (i t))) in *.
  assert (VV : vi_valid V = true).
  { unfold V, vt_vi, ot_vt, vt_valid. cbn [vi_valid vt_q]. unfold off in O. rewrite O. reflexivity. }
  assert (VP : vi_p V = vp_t (regs_param shift aw v)).
  { unfold V, vt_vi, ot_vt, vt_head. cbn [vi_p vt_q]. unfold off in O. rewrite O. reflexivity. }
  unfold vo_step, tg_step in NX. rewrite VV, VP in NX. cbn [negb] in NX. cbv zeta in NX. cbn [regs_param vp_t p_hscan p_vscan] in NX.
  destruct (vo_tready (ot_tg (st t)) V) eqn:RD.
  - rewrite NX. cbn [t_last t_h t_v]. split.
    + intros Q. apply andb_prop in Q as [-> ->]. auto.
    + intros N. destruct (off_pop t v O N) as [_ P]. unfold ot_rdy in P. fold V in P. unfold tg_sink_ready in P.
      apply andb_prop in P as [_ P]. destruct (I1 P) as [-> _].
      destruct (Z.eqb_spec 0 (nth 3 v 0)); [congruence|reflexivity].
  - rewrite NX. split; [exact I1|]. intros N. destruct (off_pop t v O N) as [_ P]. unfold ot_rdy in P. fold V in P.
    unfold tg_sink_ready in P. rewrite RD in P. discriminate.
Qed.

(** Without a genlock stream the reader's vsync registers stay clear and it never waits. *)
Lemma dr_plain : forall t, let s := ot_dr (st t) in dr_state s <> DR_WAIT_SOF /\ dr_v s = false /\ dr_v_r s = false /\ dr_sof s = false.
Proof.
  induction t as [|t (A & B & C & D)]; [repeat split; discriminate|].
  change (st (S t)) with (ot_step shift aw depth (st t) (i t)). unfold ot_step. cbv zeta. cbn [ot_dr].
  destruct (ot_cd (i t)); [|auto]. unfold vt_step. cbv zeta. cbn [vt_dr ot_vt]. unfold dr_step. cbn [dr_state dr_v dr_v_r dr_sof andb].
  split; [|auto]. destruct (dr_state (ot_dr (st t))); [|destruct (dr_done _ _)|congruence]; try discriminate.
  destruct (dri_valid _); discriminate.
Qed.

(** The offset of the reader fits its register. *)
Lemma dr_range : 0 <= aw -> forall t, 0 <= dr_offset (ot_dr (st t)) < 2 ^ aw.
Proof.
  intros Haw. assert (P : 0 < 2 ^ aw) by (apply Z.pow_pos_nonneg; lia).
  induction t as [|t IH]; [cbn; lia|].
  change (st (S t)) with (ot_step shift aw depth (st t) (i t)). unfold ot_step. cbv zeta. cbn [ot_dr].
  destruct (ot_cd (i t)); [|exact IH]. unfold vt_step. cbv zeta. cbn [vt_dr ot_vt]. unfold dr_step. cbn [dr_offset].
  destruct (dr_state (ot_dr (st t))); [lia| |exact IH]. destruct (dri_ready _); [apply Z.mod_pos_bound; exact P|exact IH].
Qed.

(** With legal sets whose syncs do not start at once, the syncs are low whenever there is no set. *)
Lemma sync_clear : forall t, (forall x v, (x < t)%nat -> off x = Some v ->
    params_ok (timing_of v) /\ 0 < p_hscan (timing_of v) /\ 0 < p_hs_start (timing_of v) /\ 0 < p_vs_start (timing_of v)) ->
  let s := ot_tg (st t) in
  match off t with
  | None => t_hs s = false /\ t_vs s = false
  | Some v => 0 <= t_h s /\ 0 <= t_v s /\ (t_hs s = true -> 0 < t_h s <= p_hs_end (timing_of v)) /\ (t_vs s = true -> 0 < t_v s <= p_vs_end (timing_of v))
  end.
Proof.
  induction t as [|t IH]; intros H s; [split; reflexivity|]. unfold s in *. clear s.
  assert (HL : forall x v, (x < t)%nat -> off x = Some v -> nth 3 v 0 <> 0).
  { intros x v X O. destruct (H x v ltac:(lia) O) as (_ & Q & _). cbn [timing_of p_hscan] in Q. lia. }
  destruct (last_clear t HL) as [L1 L2].
  specialize (IH ltac:(intros x v X; apply H; lia)). cbv zeta in IH.
  assert (NX : ot_tg (st (S t)) = if ot_cd (i t) then vo_step (ot_tg (st t)) (vt_vi (ot_vt shift aw (st t)) (ot_ti shift aw (st t) (i t))) else ot_tg (st t)) by reflexivity.
  destruct (off t) as [v|] eqn:O.
  2:{ destruct IH as [I1 I2]. destruct (ot_cd (i t)) eqn:CD.
      - assert (T : ot_tg (st (S t)) = {| t_hact := false; t_vact := false; t_h := 0; t_v := 0; t_hs := false; t_vs := false; t_last := t_last (ot_tg (st t)) |}).
        { rewrite NX. unfold vo_step, tg_step, vt_vi, ot_vt, vt_valid, vt_head. unfold off in O. rewrite O. cbn [vt_q vi_valid negb]. rewrite I1, I2. reflexivity. }
        rewrite T. destruct (off (S t)); cbn [t_h t_v t_hs t_vs]; [|auto]. repeat split; try lia; discriminate.
      - rewrite (off_stays t CD O), NX. auto. }
  destruct (H t v (Nat.lt_succ_diag_r t) O) as (OK & HS0 & HS1 & HS2). destruct IH as (I0 & I1 & I2 & I3). clear H HL.
  set (V := vt_vi (ot_vt shift aw (st t)) (ot_ti shift aw (st t) (i t))) in *.
  assert (VV : vi_valid V = true).
  { unfold V, vt_vi, ot_vt, vt_valid. cbn [vi_valid vt_q]. unfold off in O. rewrite O. reflexivity. }
  assert (VP : vi_p V = timing_of v).
  { unfold V, vt_vi, ot_vt, vt_head. cbn [vi_p vt_q]. unfold off in O. rewrite O. reflexivity. }
  unfold vo_step, tg_step in NX. rewrite VV, VP in NX. cbn [negb] in NX. cbv zeta in NX.
  destruct OK. set (p := timing_of v) in *. set (g := ot_tg (st t)) in *.
  (* a set that stays *)
  assert (STAY : off (S t) = Some v \/ (ot_cd (i t) = true /\ vo_tready g V = true /\ t_h g = 0 /\ t_v g = 0)).
  { pose proof (C78_held mem ra ii L t v) as HH. rewrite <- !run_ini in HH. cbn [ii ot_ini_in ini_cd ini_rdy] in HH.
    specialize (HH O). destruct (ot_cd (i t)); [|left; apply HH; reflexivity].
    destruct (ot_rdy shift aw (st t) (i t)) eqn:RD; [|left; apply HH; reflexivity]. right. split; [reflexivity|].
    unfold ot_rdy in RD. fold V g in RD. unfold tg_sink_ready in RD. apply andb_prop in RD as [R1 R2]. split; [exact R1|]. apply L1. exact R2. }
  assert (TR : forall a, 0 <= a < 4096 -> trunc 12 a = a) by (intros a A; apply Z.mod_small; exact A).
  destruct STAY as [-> |(CD & RD & Z1 & Z2)].
  - fold p. destruct (ot_cd (i t)); [|rewrite NX; auto]. destruct (vo_tready g V); [|rewrite NX; auto]. rewrite NX. cbn [t_h t_v t_hs t_vs].
    assert (T0 : forall a, 0 <= trunc 12 a) by (intros a; apply Z.mod_pos_bound; reflexivity).
    split; [destruct (t_h g =? p_hscan p); [lia|apply T0]|].
    split; [destruct (t_h g =? p_hscan p); [destruct (t_v g =? p_vscan p); [lia|apply T0]|exact I1]|].
    split.
    + intros Q. destruct (Z.eqb_spec (t_h g) (p_hs_end p)) as [|NE]; [discriminate|].
      assert (HH : 0 < t_h g < p_hs_end p).
      { destruct (Z.eqb_spec (t_h g) (p_hs_start p)); [lia|]. specialize (I2 Q). lia. }
      destruct (Z.eqb_spec (t_h g) (p_hscan p)); [lia|]. rewrite TR by lia. lia.
    + intros Q. destruct (Z.eqb_spec (t_v g) (p_vs_end p)) as [|NE]; [discriminate|].
      assert (HH : 0 < t_v g < p_vs_end p).
      { destruct (Z.eqb_spec (t_v g) (p_vs_start p)); [lia|]. specialize (I3 Q). lia. }
      destruct (t_h g =? p_hscan p); [|lia]. destruct (Z.eqb_spec (t_v g) (p_vscan p)); [lia|]. rewrite TR by lia. lia.
  - rewrite CD, RD in NX. rewrite NX. cbn [t_h t_v t_hs t_vs]. rewrite Z1, Z2 in *.
    assert (F1 : t_hs g = false) by (destruct (t_hs g); [specialize (I2 eq_refl); lia|reflexivity]).
    assert (F2 : t_vs g = false) by (destruct (t_vs g); [specialize (I3 eq_refl); lia|reflexivity]).
    replace (0 =? p_hs_start p) with false by (symmetry; apply Z.eqb_neq; lia). replace (0 =? p_vs_start p) with false by (symmetry; apply Z.eqb_neq; lia).
    replace (0 =? p_hscan p) with false by (symmetry; apply Z.eqb_neq; lia). rewrite F1, F2.
    replace (if 0 =? p_hs_end p then false else false) with false by (destruct (0 =? p_hs_end p); reflexivity).
    replace (if 0 =? p_vs_end p then false else false) with false by (destruct (0 =? p_vs_end p); reflexivity).
    destruct (off (S t)); [|auto]. rewrite TR by lia. repeat split; try lia; discriminate.
Qed.

Variables (d u t0 : nat) (R : list Z).
Hypothesis Hon : enabled_again shift aw depth mem ra i d u R t0.
Hypothesis Hset : forall x v, (x < u)%nat -> off x = Some v -> nth 3 v 0 <> 0.
Hypothesis Hsync : t_hs (ot_tg (st u)) = false /\ t_vs (ot_tg (st u)) = false.
Hypothesis Haddr : dr_addr_valid (ot_dr (st u)) = false.
Hypothesis Hread : ot_reads (st u) = [].

Lemma only_R : forall t v, (t0 <= t)%nat -> off t = Some v -> v = R.
Proof.
  intros t v T O. destruct Hon as (DU & DIS & CDE & EN & RG & NO & NU & SO). cbv zeta in *.
  assert (HM : Z.of_nat (length mem) = (2 ^ 2)%Z) by (rewrite L; reflexivity).
  unfold off in O. rewrite run_ini in O. fold ii in O.
  destruct (ini_offer mem ra ii L t v O) as (A & B & C & ->). cbv zeta in *.
  set (wr := f_wr _ 2 mem ra (ini_fi mem ra ii)) in *. set (rd := f_rd _ 2 mem ra (ini_fi mem ra ii)) in *. set (tau := instant wr _ t) in *.
  unfold regs_at. rewrite <- run_ini. apply RG.
  destruct (Nat.le_gt_cases u tau) as [|LT]; [assumption|exfalso].
  assert (E1 : (S (occurrences rd 0 t) <= occurrences wr 0 u)%nat).
  { replace u with (tau + (1 + (u - tau - 1)))%nat by lia. rewrite !occ_app. cbn [occurrences]. replace (0 + tau + 0)%nat with tau by lia. rewrite B. lia. }
  assert (E2 : occurrences wr 0 u = occurrences wr 0 d).
  { replace u with (d + (u - d))%nat by lia. rewrite occ_app, (occ_zero wr (0 + d)); [lia|]. intros x X. unfold wr, f_wr.
    cbn [ini_fi ai_w ai_we]. unfold enabled_at. rewrite <- run_ini. rewrite DIS by lia. rewrite !andb_false_r. reflexivity. }
  assert (E3 : (occurrences rd 0 u <= occurrences rd 0 t)%nat) by (apply occ_mono; lia).
  assert (AV : af_readable (f_st _ 2 mem ra (ini_fi mem ra ii) u) = true).
  { apply (f_available _ 2 [] mem ra (ini_fi mem ra ii) ltac:(lia) HM d u ltac:(lia)).
    - exact CDE.
    - unfold f_C, f_P. fold wr rd. lia. }
  unfold ini_out in NU. rewrite run_ini in NU. rewrite ini_fifo_run in NU. unfold f_st in AV.
  fold ii in NU. rewrite AV in NU. discriminate.
Qed.

Lemma tg_reset : ot_tg (st t0) = tg_init.
Proof.
  destruct Hon as (DU & DIS & CDE & EN & RG & NO & NU & SO). cbv zeta in *. destruct Hsync as [HS1 HS2].
  assert (LU : t_last (ot_tg (st u)) = false) by (apply (last_clear u Hset); exact NU).
  assert (K : forall x, (u <= x <= t0)%nat -> t_hs (ot_tg (st x)) = false /\ t_vs (ot_tg (st x)) = false /\ t_last (ot_tg (st x)) = false /\
    ((1 <= occurrences (fun x => ot_cd (i x)) u (x - u))%nat ->
      t_hact (ot_tg (st x)) = false /\ t_vact (ot_tg (st x)) = false /\ t_h (ot_tg (st x)) = 0 /\ t_v (ot_tg (st x)) = 0) /\
    (off x <> None -> (1 <= occurrences (fun x => ot_cd (i x)) u (x - u))%nat)).
  { intros x [X1 X2]. induction X1 as [|x X1 IH].
    - do 3 (split; [assumption|]). split; [rewrite Nat.sub_diag; cbn; lia|]. intros Q. unfold off in Q. fold (st u) in NU. congruence.
    - destruct IH as (C & D & LS & F & G); [lia|]. pose proof (NO x ltac:(lia)) as N. fold (st x) in N.
      replace (S x - u)%nat with (x - u + 1)%nat by lia. rewrite occ_app. cbn [occurrences]. replace (u + (x - u) + 0)%nat with x by lia.
      destruct (ot_cd (i x)) eqn:CD.
      + assert (ST : ot_tg (st (S x)) = vo_step (ot_tg (st x)) (vt_vi (ot_vt shift aw (st x)) (ot_ti shift aw (st x) (i x)))).
        { change (st (S x)) with (ot_step shift aw depth (st x) (i x)). unfold ot_step. cbv zeta. cbn [ot_tg]. rewrite CD. reflexivity. }
        rewrite ST. unfold vo_step, tg_step, vt_vi, ot_vt, vt_valid. cbn [vt_tg vt_q vi_valid]. rewrite N. cbn [negb t_hact t_vact t_h t_v t_hs t_vs t_last].
        do 3 (split; [assumption|]). split; [auto|]. lia.
      + rewrite Nat.add_0_r.
        assert (ST : ot_tg (st (S x)) = ot_tg (st x)).
        { change (st (S x)) with (ot_step shift aw depth (st x) (i x)). unfold ot_step. cbv zeta. cbn [ot_tg]. rewrite CD. reflexivity. }
        rewrite ST. do 3 (split; [assumption|]). split; [exact F|]. intros Q. destruct (Q (off_stays x CD N)). }
  destruct (K t0 ltac:(lia)) as (C & D & LS & F & G). specialize (F (G SO)). destruct F as (F1 & F2 & F3 & F4).
  destruct (ot_tg (st t0)); cbn in *; subst. reflexivity.
Qed.

Lemma at_reset : ot_tg (st t0) = tg_init /\ ot_dr (st t0) = dr_init /\ ot_reads (st t0) = [].
Proof.
  destruct Hon as (DU & DIS & CDE & EN & RG & NO & NU & SO). cbv zeta in *. destruct Hsync as [HS1 HS2].
  assert (K : forall x, (u <= x <= t0)%nat -> dr_state (ot_dr (st x)) = DR_IDLE /\ ot_reads (st x) = [] /\ t_hs (ot_tg (st x)) = false /\ t_vs (ot_tg (st x)) = false /\
    ((1 <= occurrences (fun x => ot_cd (i x)) u (x - u))%nat ->
      t_hact (ot_tg (st x)) = false /\ t_vact (ot_tg (st x)) = false /\ t_h (ot_tg (st x)) = 0 /\ t_v (ot_tg (st x)) = 0 /\ dr_offset (ot_dr (st x)) = 0) /\
    (off x <> None -> (1 <= occurrences (fun x => ot_cd (i x)) u (x - u))%nat)).
  { intros x [X1 X2]. induction X1 as [|x X1 IH].
    - split; [|split; [exact Hread|split; [exact HS1|split; [exact HS2|split]]]].
      + destruct (dr_plain u) as [P _]. unfold dr_addr_valid in Haddr. destruct (dr_state (ot_dr (st u))); [reflexivity|discriminate|congruence].
      + rewrite Nat.sub_diag. cbn. lia.
      + intros Q. unfold off in Q. fold (st u) in NU. congruence.
    - destruct IH as (A & B & C & D & F & G); [lia|]. pose proof (NO x ltac:(lia)) as N. fold (st x) in N.
      replace (S x - u)%nat with (x - u + 1)%nat by lia. rewrite occ_app. cbn [occurrences]. replace (u + (x - u) + 0)%nat with x by lia.
      destruct (ot_cd (i x)) eqn:CD.
      + assert (ST : ot_tg (st (S x)) = vo_step (ot_tg (st x)) (vt_vi (ot_vt shift aw (st x)) (ot_ti shift aw (st x) (i x))) /\
          ot_dr (st (S x)) = dr_step false aw 0 (ot_dr (st x)) (vt_di depth (ot_vt shift aw (st x)) (ot_ti shift aw (st x) (i x))) /\
          ot_reads (st (S x)) = vt_reads (vt_step aw depth (ot_vt shift aw (st x)) (ot_ti shift aw (st x) (i x)))).
        { change (st (S x)) with (ot_step shift aw depth (st x) (i x)). unfold ot_step. cbv zeta. cbn [ot_tg ot_dr ot_reads]. rewrite CD. auto. }
        destruct ST as (-> & -> & ->). unfold vt_step, vo_step, tg_step, dr_step, vt_vi, vt_di, dr_taken, dr_addr_valid, ot_vt, vt_valid. cbv zeta.
        cbn [vt_tg vt_dr vt_reads vt_q vi_valid vi_dv dri_valid]. rewrite N, A, B. cbn [negb t_hact t_vact t_h t_v t_hs t_vs dr_state dr_offset andb hd tl app].
        rewrite andb_false_r. cbn [andb app]. do 4 (split; [assumption || reflexivity|]). split; [auto|]. lia.
      + rewrite Nat.add_0_r.
        assert (ST : ot_tg (st (S x)) = ot_tg (st x) /\ ot_dr (st (S x)) = ot_dr (st x) /\ ot_reads (st (S x)) = ot_reads (st x)).
        { change (st (S x)) with (ot_step shift aw depth (st x) (i x)). unfold ot_step. cbv zeta. cbn [ot_tg ot_dr ot_reads]. rewrite CD. auto. }
        destruct ST as (-> & -> & ->). do 4 (split; [assumption|]). split; [exact F|]. intros Q. destruct (Q (off_stays x CD N)). }
  destruct (K t0 ltac:(lia)) as (A & B & C & D & F & G). specialize (F (G SO)). destruct F as (F1 & F2 & F3 & F4 & F5).
  destruct (dr_plain t0) as (_ & V1 & V2 & V3).
  assert (LS : t_last (ot_tg (st t0)) = false).
  { assert (LU : t_last (ot_tg (st u)) = false) by (apply (last_clear u Hset); exact NU).
    assert (LL : forall x, (u <= x <= t0)%nat -> t_last (ot_tg (st x)) = false); [|apply LL; lia].
    intros x [X1 X2]. induction X1 as [|x X1 IH]; [exact LU|]. specialize (IH ltac:(lia)). pose proof (NO x ltac:(lia)) as N. fold (st x) in N.
    change (st (S x)) with (ot_step shift aw depth (st x) (i x)). unfold ot_step. cbv zeta. cbn [ot_tg]. destruct (ot_cd (i x)); [|exact IH].
    unfold vt_step, vo_step, tg_step, vt_vi, ot_vt, vt_valid. cbv zeta. cbn [vt_tg vt_q vi_valid]. rewrite N. cbn [negb t_last]. exact IH. }
  split; [|split; [|exact B]].
  - destruct (ot_tg (st t0)); cbn in *; subst. reflexivity.
  - destruct (ot_dr (st t0)); cbn in *; subst. reflexivity.
Qed.
End Restart.

(** What holds: if the frame reader has finished (no address offered, no data
    outstanding) and the syncs are low when the output is enabled again, the
    picture is shown from its first pixel, at the scan the registers ask for, as
    in C90.  Every set used before must have had a line of at least two clocks.
    Missing: a reader that is still at work, as in C91_restart_refuted. *)
Theorem C91_restart_partial :
  forall shift aw depth mem ra (i : nat -> ot_in), 0 <= aw -> length mem = 4%nat ->
  forall d u R t0, enabled_again shift aw depth mem ra i d u R t0 ->
  let st := ot_run shift aw depth mem ra i in
  (forall x v, (x < u)%nat -> ini_out (ot_ini (st x)) = Some v -> p_hscan (timing_of v) <> 0) ->
  dr_addr_valid (ot_dr (st u)) = false -> ot_reads (st u) = [] -> t_hs (ot_tg (st u)) = false -> t_vs (ot_tg (st u)) = false ->
  let p := timing_of R in params_ok p -> 0 < p_hres p * p_vres p < 2 ^ aw -> nth 9 R 0 / 2 ^ shift = p_hres p * p_vres p ->
  forall E, clocks i ((p_hscan p + 1) * (p_vscan p + 1)) E -> (forall x, ot_ready (i x) = true) ->
  forall M junk,
  let o n := ot_px shift aw M (junk n) (st (E n)) (i (E n)) in
  let dv n := ot_dv shift aw (st (E n)) (i (E n)) in
  let n0 := occurrences (fun x => ot_cd (i x)) 0 t0 in
  forall n, (n0 <= n)%nat -> let held := (underflows o dv n - underflows o dv n0)%nat in
  ((n <= n0 + held)%nat -> px_de (o n) = false /\ px_hs (o n) = false /\ px_vs (o n) = false) /\
  (forall f y x, 0 <= f -> 0 <= y < p_vscan p + 1 -> 0 <= x < p_hscan p + 1 ->
   Z.of_nat n = Z.of_nat n0 + 1 + (f * (p_vscan p + 1) + y) * (p_hscan p + 1) + x + Z.of_nat held ->
   px_de (o n) = (x <? p_hres p) && (y <? p_vres p) /\
   px_hs (o n) = (p_hs_start p <=? x) && (x <? p_hs_end p) /\
   px_vs (o n) = (p_vs_start p <=? y) && (y <? p_vs_end p) /\
   (x < p_hres p -> y < p_vres p -> dv n = true ->
    let w := M (picture_word shift aw R (y * p_hres p + x)) in
    px_r (o n) = w mod 2 ^ 8 /\ px_g (o n) = w / 2 ^ 8 mod 2 ^ 8 /\ px_b (o n) = w / 2 ^ 16 mod 2 ^ 8)).
Proof.
  intros shift aw depth mem ra i Haw L d u R t0 Hon st Hset HA HR HS1 HS2 p ok Hpix Hl E HE Hready M junk o dv n0 n Hn.
  pose proof (at_reset shift aw depth mem ra i L d u t0 R Hon Hset (conj HS1 HS2) HA HR) as BASE.
  pose proof (only_R shift aw depth mem ra i L d u t0 R Hon) as ONLY.
  destruct Hon as (DU & DIS & CDE & EN & RG & NO & NU & SO). cbv zeta in *.
  exact (screen shift aw depth mem ra i Haw L R t0 ltac:(intros x X; apply EN; lia) ONLY BASE SO ok Hpix Hl E HE Hready M junk n Hn).
Qed.
Print Assumptions C91_restart_partial.

(** With a memory that keeps accepting, the example above meets the hypotheses. *)
Example ex_rs_quiet : let s := ex_rs false 81 in
  dr_addr_valid (ot_dr s) = false /\ ot_reads s = [] /\ t_hs (ot_tg s) = false /\ t_vs (ot_tg s) = false /\
  (forall x v, (x < 81)%nat -> ini_out (ot_ini (ex_rs false x)) = Some v -> p_hscan (timing_of v) <> 0).
Proof.
  split; [reflexivity|]. split; [reflexivity|]. split; [reflexivity|]. split; [reflexivity|]. intros x v X O.
  assert (Q : forallb (fun x => match ini_out (ot_ini (ex_rs false x)) with Some v => negb (nth 3 v 0 =? 0) | None => true end) (seq 0 81) = true) by (vm_compute; reflexivity).
  rewrite forallb_forall in Q. specialize (Q x ltac:(apply in_seq; lia)). rewrite O in Q. apply negb_true_iff, Z.eqb_neq in Q. exact Q.
Qed.

(** The same with a reader still at work.  [offset] words of the picture before it have been read
    when the new set arrives; a reader that is past the end of the new picture (of [N] words) goes on
    to the end of the address space, so it is counted as before the picture. *)
Definition reader_position (aw N : Z) (reading : bool) (offset : Z) : Z :=
  if reading then (if offset <? N then offset else offset - 2 ^ aw) else 0.
(** The memory word shown as pixel number [g] since the restart: first the words [W] that were on
    their way, then the words from the reader's position on, round and round. *)
Definition shown_address (shift aw : Z) (R W : list Z) (pos g : Z) : Z :=
  if g <? Z.of_nat (length W) then nth (Z.to_nat g) W 0 else
  let z := pos + g - Z.of_nat (length W) in
  (nth 8 R 0 / 2 ^ shift + (if z <? 0 then z else z mod (p_hres (timing_of R) * p_vres (timing_of R)))) mod 2 ^ aw.

(** What holds: if every set used before was legal, with a line of at least two clocks and syncs
    that do not start with the frame, then after the restart the scan is the one the registers ask
    for, from its first clock on, and each pixel shown is known from the state of the reader when the
    new set arrives.  Missing: the picture is not shown from its first pixel if the reader was
    still at work (C91_restart_refuted). *)
Theorem C91_restart_exact_partial :
  forall shift aw depth mem ra (i : nat -> ot_in), 0 <= aw -> length mem = 4%nat ->
  forall d u R t0, enabled_again shift aw depth mem ra i d u R t0 ->
  let st := ot_run shift aw depth mem ra i in
  (forall x v, (x < u)%nat -> ini_out (ot_ini (st x)) = Some v ->
    params_ok (timing_of v) /\ 0 < p_hscan (timing_of v) /\ 0 < p_hs_start (timing_of v) /\ 0 < p_vs_start (timing_of v)) ->
  let p := timing_of R in params_ok p -> 0 < p_hres p * p_vres p < 2 ^ aw -> nth 9 R 0 / 2 ^ shift = p_hres p * p_vres p ->
  forall E, clocks i ((p_hscan p + 1) * (p_vscan p + 1)) E -> (forall x, ot_ready (i x) = true) ->
  forall M junk,
  let o n := ot_px shift aw M (junk n) (st (E n)) (i (E n)) in
  let dv n := ot_dv shift aw (st (E n)) (i (E n)) in
  let n0 := occurrences (fun x => ot_cd (i x)) 0 t0 in
  let pos := reader_position aw (p_hres p * p_vres p) (dr_addr_valid (ot_dr (st t0))) (dr_offset (ot_dr (st t0))) in
  forall n, (n0 <= n)%nat -> let held := (underflows o dv n - underflows o dv n0)%nat in
  ((n <= n0 + held)%nat -> px_de (o n) = false /\ px_hs (o n) = false /\ px_vs (o n) = false) /\
  (forall f y x, 0 <= f -> 0 <= y < p_vscan p + 1 -> 0 <= x < p_hscan p + 1 ->
   Z.of_nat n = Z.of_nat n0 + 1 + (f * (p_vscan p + 1) + y) * (p_hscan p + 1) + x + Z.of_nat held ->
   px_de (o n) = (x <? p_hres p) && (y <? p_vres p) /\
   px_hs (o n) = (p_hs_start p <=? x) && (x <? p_hs_end p) /\
   px_vs (o n) = (p_vs_start p <=? y) && (y <? p_vs_end p) /\
   (x < p_hres p -> y < p_vres p -> dv n = true ->
    let w := M (shown_address shift aw R (ot_reads (st t0)) pos ((f * p_vres p + y) * p_hres p + x)) in
    px_r (o n) = w mod 2 ^ 8 /\ px_g (o n) = w / 2 ^ 8 mod 2 ^ 8 /\ px_b (o n) = w / 2 ^ 16 mod 2 ^ 8)).
Proof.
  intros shift aw depth mem ra i Haw L d u R t0 Hon st Hset p ok Hpix Hl E HE Hready M junk o dv n0 pos n Hn held.
  set (N := p_hres p * p_vres p) in *.
  assert (HSET : forall x v, (x < u)%nat -> ini_out (ot_ini (st x)) = Some v -> nth 3 v 0 <> 0).
  { intros x v X O. destruct (Hset x v X O) as (_ & Q & _). cbn [timing_of p_hscan] in Q. lia. }
  assert (HSY : t_hs (ot_tg (st u)) = false /\ t_vs (ot_tg (st u)) = false).
  { pose proof (sync_clear shift aw depth mem ra i L u Hset) as Q. cbv zeta beta in Q. destruct Hon as (_ & _ & _ & _ & _ & _ & NU & _). cbv zeta in NU.
    fold st in NU, Q. rewrite NU in Q. exact Q. }
  pose proof (tg_reset shift aw depth mem ra i L d u t0 R Hon HSET HSY) as TG. fold st in TG.
  pose proof (only_R shift aw depth mem ra i L d u t0 R Hon) as ONLY.
  pose proof (dr_range shift aw depth mem ra i L Haw t0) as RG. fold st in RG.
  destruct (dr_plain shift aw depth mem ra i t0) as (NW & _). fold st in NW.
  destruct Hon as (DU & DIS & CDE & EN & RGS & NO & NU & SO). cbv zeta in *.
  set (D := ot_dr (st t0)) in *. set (W := ot_reads (st t0)) in *.
  pose proof (len_pr shift aw R Hpix Hl) as LEN. fold p N in LEN.
  assert (PW : 0 < 2 ^ aw) by (apply Z.pow_pos_nonneg; lia).
  assert (EX : exists X c0, 0 <= c0 /\ reader_at aw (regs_param shift aw R) D X c0 /\ (X = 0%nat \/ c0 = 0) /\ pos = c0 - Z.of_nat X /\ Z.of_nat X <= 2 ^ aw).
  { unfold pos, reader_position, reader_at, dr_rel. rewrite LEN. fold D. unfold dr_addr_valid. destruct (dr_state D) eqn:SD; [| |congruence].
    - exists 0%nat, 0. cbn [Nat.eqb]. repeat split; lia.
    - destruct (Z.ltb_spec (dr_offset D) N) as [LT|GE].
      + exists 0%nat, (dr_offset D). cbn [Nat.eqb]. repeat split; try lia. symmetry. apply Z.mod_small. lia.
      + exists (Z.to_nat (2 ^ aw - dr_offset D)), 0. replace (Nat.eqb _ 0) with false by (symmetry; apply Nat.eqb_neq; lia).
        rewrite !Z2Nat.id by lia. repeat split; try lia. }
  destruct EX as (X & c0 & C0 & RA & XC & PE & XB).
  destruct (screen_from shift aw depth mem ra i Haw L R t0 D W X c0 ltac:(intros x XX; apply EN; lia) ONLY (conj TG (conj eq_refl eq_refl)) SO ok Hpix Hl E HE Hready M junk C0 RA n Hn) as [H1 H2].
  split; [exact H1|]. intros f y x Hf Hy Hx EQ. destruct (H2 f y x Hf Hy Hx EQ) as (D1 & D2 & D3 & D4).
  split; [exact D1|]. split; [exact D2|]. split; [exact D3|]. intros XX YY DV. specialize (D4 XX YY DV). cbv zeta in D4.
  set (g := (f * p_vres p + y) * p_hres p + x) in *.
  assert (G0 : 0 <= g) by (unfold g; destruct ok; nia).
  set (V := W ++ _) in D4.
  assert (WE : wordat aw (regs_param shift aw R) V c0 (Z.to_nat g) = shown_address shift aw R W pos g).
  { assert (LV : length V = (length W + X)%nat) by (unfold V; rewrite app_length, map_length, seq_length; reflexivity).
    assert (PM : forall z, trunc aw (vp_base (regs_param shift aw R) + z) = (nth 8 R 0 / 2 ^ shift + z) mod 2 ^ aw).
    { intros z. unfold regs_param, dr_words, trunc. cbn [vp_base]. apply Zplus_mod_idemp_l. }
    unfold shown_address. cbv zeta. fold p N. destruct (Z.ltb_spec g (Z.of_nat (length W))) as [LT|GE].
    - rewrite wordat_nth by lia. unfold V. rewrite app_nth1 by lia. reflexivity.
    - rewrite PE. destruct (Nat.lt_ge_cases (Z.to_nat g) (length V)) as [LT|GE2].
      + rewrite wordat_nth by exact LT. unfold V. rewrite app_nth2 by lia.
        rewrite (nth_indep _ 0 ((fun j => trunc aw (vp_base (regs_param shift aw R) + (2 ^ aw - Z.of_nat X + Z.of_nat j))) 0%nat)) by (rewrite map_length, seq_length; lia).
        rewrite (map_nth (fun j => trunc aw (vp_base (regs_param shift aw R) + (2 ^ aw - Z.of_nat X + Z.of_nat j))) (seq 0 X) 0%nat), seq_nth by lia.
        rewrite PM. destruct XC as [-> | ->]; [lia|].
        replace (0 - Z.of_nat X + g - Z.of_nat (length W) <? 0) with true by (symmetry; apply Z.ltb_lt; lia).
        replace (nth 8 R 0 / 2 ^ shift + (2 ^ aw - Z.of_nat X + Z.of_nat (0 + (Z.to_nat g - length W))))
          with (nth 8 R 0 / 2 ^ shift + (0 - Z.of_nat X + g - Z.of_nat (length W)) + 1 * 2 ^ aw) by lia.
        apply Z.mod_add. lia.
      + rewrite wordat_past by exact GE2. rewrite PM, LEN.
        replace (c0 - Z.of_nat X + g - Z.of_nat (length W)) with (c0 + Z.of_nat (Z.to_nat g - length V)) by lia.
        replace (c0 + Z.of_nat (Z.to_nat g - length V) <? 0) with false by (symmetry; apply Z.ltb_ge; lia). reflexivity. }
  rewrite <- WE. exact D4.
Qed.
Print Assumptions C91_restart_exact_partial.

(** The run of C91_restart_refuted: the reader is at word 1 of 2 with nothing on its way, so every
    frame shows word 1 first; had one word been on its way, the frames would be right after it. *)
Example ex_rs_busy : let s := ex_rs true 84 in
  (forall x v, (x < 81)%nat -> ini_out (ot_ini (ex_rs true x)) = Some v ->
    params_ok (timing_of v) /\ 0 < p_hscan (timing_of v) /\ 0 < p_hs_start (timing_of v) /\ 0 < p_vs_start (timing_of v)) /\
  ot_reads s = [] /\ reader_position 8 2 (dr_addr_valid (ot_dr s)) (dr_offset (ot_dr s)) = 1 /\
  map (shown_address 2 8 ex_rs_regs [] 1) [0; 1; 2; 3] = [101; 100; 101; 100] /\
  map (shown_address 2 8 ex_rs_regs [7; 8] (reader_position 8 2 true 253)) [0; 1; 2; 3; 4; 5; 6; 7] = [7; 8; 97; 98; 99; 100; 101; 100].
Proof.
  split; [|repeat split; reflexivity]. intros x v X O.
  assert (Q : forallb (fun x => match ini_out (ot_ini (ex_rs true x)) with Some v => forallb (fun k => nth k v 0 =? nth k ex_rs_regs 0) (seq 0 8) | None => true end) (seq 0 81) = true) by (vm_compute; reflexivity).
  rewrite forallb_forall in Q. specialize (Q x ltac:(apply in_seq; lia)). rewrite O in Q. rewrite forallb_forall in Q.
  assert (T : timing_of v = timing_of ex_rs_regs).
  { unfold timing_of. rewrite !(fun k H => proj1 (Z.eqb_eq _ _) (Q k H)) by (apply in_seq; lia). reflexivity. }
  rewrite T. split; [constructor; vm_compute; repeat split; discriminate|]. repeat split; reflexivity.
Qed.
