(** Proofs about the frame reader and the video output core. *)
From Coq Require Import ZArith List Bool Lia.
From Verif Require Import Hdl Trace TimingModel TimingSpec TimingProofs VideoOutModel.
Import ListNotations.
Open Scope Z_scope.

(** * Frame reader *)
Section Pass.
Variables (genlock : bool) (aw delay : Z) (i : nat -> dr_in) (t : nat) (base len : Z).
Let off0 := if genlock then trunc aw delay else 0.
Hypothesis Haw : 0 <= aw.
Hypothesis Hlen : off0 < len <= 2 ^ aw.
Hypothesis Hidle : dr_state (dr_run genlock aw delay i t) = DR_IDLE.
Hypothesis Hvalid : dri_valid (i t) = true.
Hypothesis Hconst : forall n, (t < n)%nat -> dri_base (i n) = base /\ dri_length (i n) = len.

Let rdy := fun n => dri_ready (i n).
Let st := dr_run genlock aw delay i.

Lemma dr_run_S : forall n, st (S n) = dr_step genlock aw delay (st n) (i n).
Proof. reflexivity. Qed.

Lemma off0_nonneg : 0 <= off0.
Proof. unfold off0. destruct genlock; [|lia]. apply trunc_range. lia. Qed.

Lemma dr_pass : forall n,
  off0 + Z.of_nat (occurrences rdy (S t) n) < len ->
  dr_state (st (S t + n)) = DR_READ /\
  dr_offset (st (S t + n)) = off0 + Z.of_nat (occurrences rdy (S t) n) /\
  collect (fun m => dr_taken aw (st m) (i m)) (S t) n =
    map (fun k => trunc aw (base + off0 + Z.of_nat k)) (seq 0 (occurrences rdy (S t) n)) /\
  (forall m, (S t <= m < S t + n)%nat -> dr_done (st m) (i m) = false).
Proof.
  induction n as [|n IH]; intros H.
  - rewrite Nat.add_0_r, dr_run_S. unfold dr_step. change (dr_state (st t)) with (dr_state (dr_run genlock aw delay i t)).
    rewrite Hidle, Hvalid. cbn [dr_state dr_offset occurrences collect]. split; [reflexivity|].
    split; [fold off0; lia|]. split; [reflexivity|]. intros; lia.
  - cbn [occurrences] in H. destruct (Hconst (S t + n)%nat ltac:(lia)) as [Hb Hl].
    destruct IH as (I1 & I2 & I3 & I4); [destruct (rdy (S t + n)%nat); lia|].
    pose proof off0_nonneg as O0.
    assert (D : dr_done (st (S t + n)) (i (S t + n)%nat) = false).
    { unfold dr_done. unfold rdy at 2 in H. destruct (dri_ready (i (S t + n)%nat)); [|rewrite andb_false_r; reflexivity].
      rewrite I2, Hl. apply andb_false_iff. right. apply Z.eqb_neq. lia. }
    rewrite Nat.add_succ_r, dr_run_S. unfold dr_step. cbn [dr_state dr_offset].
    rewrite I1, D, I2. cbn [collect occurrences]. rewrite I3. unfold dr_taken, dr_addr_valid, dr_addr. rewrite I1, I2, Hb.
    change (rdy (S t + n)%nat) with (dri_ready (i (S t + n)%nat)). cbn [andb].
    change (rdy (S t + n)%nat) with (dri_ready (i (S t + n)%nat)) in H.
    split; [reflexivity|]. split; [|split].
    + destruct (dri_ready (i (S t + n)%nat)); rewrite Nat2Z.inj_add; [|lia]. rewrite trunc_id by lia. lia.
    + destruct (dri_ready (i (S t + n)%nat)).
      * rewrite seq_app, map_app. cbn [seq map plus]. rewrite Z.add_assoc. reflexivity.
      * rewrite Nat.add_0_r, app_nil_r. reflexivity.
    + intros m Hm. destruct (Nat.eq_dec m (S t + n)) as [-> | E]; [exact D|apply I4; lia].
Qed.
End Pass.

(** Constant parameters: the reader loops over the frame for ever. *)
Section Loop.
Variables (aw base len : Z).
Hypothesis Haw : 0 <= aw.
Hypothesis Hlen : 0 < len <= 2 ^ aw.

(** Relation between the reader and the number [c] of addresses taken so far. *)
Definition dr_rel (s : dr_st) (c : Z) : Prop :=
  match dr_state s with
  | DR_IDLE => c mod len = 0
  | DR_READ => dr_offset s = c mod len
  | DR_WAIT_SOF => False
  end.

Lemma dr_rel_step : forall s c d, 0 <= c ->
  dri_valid d = true -> dri_base d = base -> dri_length d = len ->
  dr_rel s c ->
  match dr_taken aw s d with
  | None => dr_rel (dr_step false aw 0 s d) c
  | Some a => a = trunc aw (base + c mod len) /\ dr_rel (dr_step false aw 0 s d) (c + 1)
  end.
Proof.
  intros s c d Hc Hv Hb Hl R. unfold dr_rel, dr_taken, dr_addr_valid, dr_addr, dr_step, dr_done, dr_addr_valid in *.
  cbn [dr_state dr_offset]. destruct (mod_succ c len ltac:(lia) Hc) as [EM _].
  pose proof (Z.mod_pos_bound c len ltac:(lia)) as MB.
  destruct (dr_state s); cbn [andb].
  - rewrite Hv. symmetry. exact R.
  - destruct (dri_ready d); cbn [andb]; [|exact R].
    split; [rewrite Hb, R; reflexivity|].
    rewrite R, Hl, EM. destruct (c mod len =? len - 1) eqn:E; [reflexivity|].
    apply Z.eqb_neq in E. apply trunc_id. lia.
  - contradiction.
Qed.
End Loop.

(** * Number of displayed pixels before a point of the scan *)
Section Count.
Variable p : fparam.
Hypothesis ok : params_ok p.

Definition pixels_before (k : nat) : nat := occurrences (fun m => spec_de p (Z.of_nat m)) 0 k.

Lemma pixels_before_closed : forall k,
  let x := scan_x p (Z.of_nat k) in let y := scan_y p (Z.of_nat k) in
  let f := Z.of_nat k / (p_hscan p + 1) / (p_vscan p + 1) in
  Z.of_nat (pixels_before k) =
    f * (p_hres p * p_vres p) +
    (if y <? p_vres p then y * p_hres p + Z.min x (p_hres p) else p_hres p * p_vres p).
Proof.
  induction k as [|k IH].
  - cbv zeta. cbn [pixels_before occurrences]. unfold scan_x, scan_y. change (Z.of_nat 0) with 0.
    destruct ok. rewrite !Z.div_0_l, !Z.mod_0_l by lia. destruct (Z.ltb_spec 0 (p_vres p)); nia.
  - cbv zeta in *. unfold pixels_before in *. cbn [occurrences plus]. rewrite Nat2Z.inj_add, IH. clear IH.
    rewrite Nat2Z.inj_succ, <- Z.add_1_r. set (a := Z.of_nat k). assert (Ha : 0 <= a) by lia.
    destruct (scan_succ p ok a Ha) as [-> ->].
    destruct (scan_range p ok a) as [Rx Ry].
    assert (FS : (a + 1) / (p_hscan p + 1) / (p_vscan p + 1) =
                 a / (p_hscan p + 1) / (p_vscan p + 1) +
                 (if (scan_x p a =? p_hscan p) && (scan_y p a =? p_vscan p) then 1 else 0)).
    { destruct ok. unfold scan_x, scan_y. destruct (mod_succ a (p_hscan p + 1) ltac:(lia) Ha) as [_ ->].
      replace (p_hscan p + 1 - 1) with (p_hscan p) by lia.
      destruct (a mod (p_hscan p + 1) =? p_hscan p); cbn [andb]; [|lia].
      destruct (mod_succ (a / (p_hscan p + 1)) (p_vscan p + 1) ltac:(lia) ltac:(apply Z.div_pos; lia)) as [_ ->].
      replace (p_vscan p + 1 - 1) with (p_vscan p) by lia.
      destruct ((a / (p_hscan p + 1)) mod (p_vscan p + 1) =? p_vscan p); lia. }
    rewrite FS. unfold spec_de.
    generalize dependent (a / (p_hscan p + 1) / (p_vscan p + 1)). intros f _.
    generalize dependent (scan_x p a). intros x Rx.
    generalize dependent (scan_y p a). intros y Ry. destruct ok.
    destruct (Z.eqb_spec x (p_hscan p)), (Z.eqb_spec y (p_vscan p)); cbn [andb];
    repeat match goal with |- context [?u <? ?v] => destruct (Z.ltb_spec u v) end; cbn [andb Z.of_nat Pos.of_succ_nat]; nia.
Qed.

Lemma pixels_before_point : forall f y x, 0 <= f -> 0 <= y < p_vres p -> 0 <= x < p_hres p ->
  Z.of_nat (pixels_before (Z.to_nat ((f * (p_vscan p + 1) + y) * (p_hscan p + 1) + x))) =
    f * (p_hres p * p_vres p) + y * p_hres p + x.
Proof.
  intros f y x Hf Hy Hx. destruct ok.
  assert (N : 0 <= (f * (p_vscan p + 1) + y) * (p_hscan p + 1) + x) by nia.
  rewrite pixels_before_closed. cbv zeta. rewrite Z2Nat.id by exact N.
  destruct (point_xy p f y x Hf ltac:(lia) ltac:(lia)) as [A B]. cbv zeta in A, B. rewrite A, B.
  replace (((f * (p_vscan p + 1) + y) * (p_hscan p + 1) + x) / (p_hscan p + 1)) with (f * (p_vscan p + 1) + y)
    by (apply (Z.div_unique _ _ _ x); lia).
  replace ((f * (p_vscan p + 1) + y) / (p_vscan p + 1)) with f by (apply (Z.div_unique _ _ _ y); lia).
  replace (y <? p_vres p) with true by (symmetry; apply Z.ltb_lt; lia). rewrite Z.min_l by lia. lia.
Qed.
End Count.

(** * The composed output core with constant parameters *)

(** The words in the order in which the reader delivers them: those of [V], then the frame
    for ever, from its word [c0] on. *)
Fixpoint wordat (aw : Z) (pr : vparam) (V : list Z) (c0 : Z) (k : nat) : Z :=
  match V with
  | [] => trunc aw (vp_base pr + (c0 + Z.of_nat k) mod vp_length pr)
  | a :: r => match k with O => a | S k' => wordat aw pr r c0 k' end
  end.
Lemma wordat_in : forall aw pr V c0, V = map (wordat aw pr V c0) (seq 0 (length V)).
Proof.
  intros aw pr V c0. induction V as [|a V IH]; [reflexivity|]. cbn [length seq map]. change (wordat aw pr (a :: V) c0 0) with a. f_equal.
  rewrite IH at 1. rewrite <- seq_shift, map_map. reflexivity.
Qed.
Lemma wordat_nth : forall aw pr V c0 k, (k < length V)%nat -> wordat aw pr V c0 k = nth k V 0.
Proof. intros aw pr. induction V as [|a V IH]; intros c0 k H; cbn [length] in H; [lia|]. destruct k as [|k]; [reflexivity|]. cbn [nth]. apply IH. lia. Qed.
Lemma wordat_past : forall aw pr V c0 k, (length V <= k)%nat ->
  wordat aw pr V c0 k = trunc aw (vp_base pr + (c0 + Z.of_nat (k - length V)) mod vp_length pr).
Proof.
  intros aw pr. induction V as [|a V IH]; intros c0 k H; [cbn [length]; rewrite Nat.sub_0_r; reflexivity|].
  destruct k as [|k]; cbn [length] in H; [lia|]. cbn [length Nat.sub]. change (wordat aw pr (a :: V) c0 (S k)) with (wordat aw pr V c0 k). apply IH. lia.
Qed.

(** The core starts with its timing generator in reset, the reader in state [D] and the words
    [W] outstanding.  A reader past the end of the frame goes on for [X] words, until its
    offset wraps; otherwise it is at word [c0] of the frame. *)
Section Frame.
Variables (aw : Z) (depth : nat) (pr : vparam) (i : nat -> vt_in).
Let p := vp_t pr.
Let len := vp_length pr.
Hypothesis Haw : 0 <= aw.
Hypothesis Hlen : 0 < len <= 2 ^ aw.
Hypothesis ok : params_ok p.
Hypothesis Hpush : forall n q, ti_push (i n) = Some q -> q = pr.
Variables (D : dr_st) (W : list Z) (X : nat) (c0 : Z).
Let st := at_ (vt_step aw depth) {| vt_tg := tg_init; vt_dr := D; vt_q := [pr]; vt_reads := W |} i.
Hypothesis Hq : forall n, vt_q (st n) <> [].
Let V := W ++ map (fun j => trunc aw (vp_base pr + (2 ^ aw - Z.of_nat X + Z.of_nat j))) (seq 0 X).
Definition reader_at (s : dr_st) (x : nat) (c : Z) : Prop :=
  if (x =? 0)%nat then dr_rel len s c else dr_state s = DR_READ /\ dr_offset s = 2 ^ aw - Z.of_nat x /\ len <= 2 ^ aw - Z.of_nat x /\ c = 0.
Hypothesis Hc0 : 0 <= c0.
Hypothesis HD : reader_at D X c0.

Definition vt_xfer (s : vt_st) (x : vt_in) : bool := vo_transfer (vt_tg s) (vt_vi s x).

Let acc n := occurrences (fun m => vt_xfer (st m) (i m)) 0 n.

Lemma vt_run_S : forall n, st (S n) = vt_step aw depth (st n) (i n).
Proof. reflexivity. Qed.

Lemma vt_q_const : forall n q, In q (vt_q (st n)) -> q = pr.
Proof.
  induction n as [|n IH]; intros q H.
  - cbn in H. destruct H as [H | []]. symmetry. exact H.
  - rewrite vt_run_S in H. cbn [vt_step vt_q] in H. apply in_app_or in H as [H | H].
    + apply IH. destruct (vt_valid (st n) && _); [|exact H].
      destruct (vt_q (st n)); [destruct H|right; exact H].
    + destruct (ti_push (i n)) as [r|] eqn:E; [|destruct H]. destruct (length (vt_q (st n)) <? 4)%nat; [|destruct H]. destruct H as [<- | []]. apply (Hpush n). exact E.
Qed.

Lemma vt_head_const : forall n, vt_head (st n) (i n) = pr /\ vt_valid (st n) = true.
Proof.
  intros n. unfold vt_head, vt_valid. pose proof (Hq n) as Q. pose proof (vt_q_const n) as C.
  destruct (vt_q (st n)) as [|a r]; [congruence|]. split; [apply C; left; reflexivity|reflexivity].
Qed.

Lemma vt_tg_at : forall n, vt_tg (st n) = tg_at p (Z.of_nat (acc n)).
Proof.
  induction n as [|n IH]; [symmetry; apply tg_at_0; exact ok|].
  rewrite vt_run_S. cbn [vt_step vt_tg]. unfold vo_step.
  destruct (vt_head_const n) as [Hh Hv]. unfold acc in *. cbn [occurrences plus].
  assert (ET : vo_tready (vt_tg (st n)) (vt_vi (st n) (i n)) = vt_xfer (st n) (i n)).
  { unfold vo_tready, vt_xfer, vo_transfer. cbn [vt_vi vi_valid]. rewrite Hv. reflexivity. }
  rewrite ET. cbn [vt_vi vi_valid vi_p]. rewrite Hh, Hv. fold p. rewrite IH.
  destruct (vt_xfer (st n) (i n)); rewrite Nat2Z.inj_add.
  - change (Z.of_nat 1) with 1. apply tg_at_succ; [exact ok|lia].
  - change (Z.of_nat 0) with 0. rewrite Z.add_0_r. reflexivity.
Qed.

(** Pixels taken from the DMA so far. *)
Let taken n := pixels_before p (acc n - 1).

Definition wordaddr (k : nat) : Z := trunc aw (vp_base pr + Z.of_nat k mod len).

Lemma reader_step : forall s q d, (length W <= q)%nat -> dri_valid d = true -> dri_base d = vp_base pr -> dri_length d = len ->
  reader_at s (length V - q) (c0 + Z.of_nat (q - length V)) ->
  match dr_taken aw s d with
  | None => reader_at (dr_step false aw 0 s d) (length V - q) (c0 + Z.of_nat (q - length V))
  | Some a => a = wordat aw pr V c0 q /\ reader_at (dr_step false aw 0 s d) (length V - S q) (c0 + Z.of_nat (S q - length V))
  end.
Proof.
  intros s q d HW Hv Hb Hl R. unfold reader_at in R. destruct (Nat.eqb_spec (length V - q) 0) as [Z0|NZ].
  - pose proof (dr_rel_step aw (vp_base pr) len Haw Hlen s (c0 + Z.of_nat (q - length V)) d ltac:(lia) Hv Hb Hl R) as RS.
    destruct (dr_taken aw s d) as [a|].
    + destruct RS as [-> RS]. split; [symmetry; apply wordat_past; lia|]. unfold reader_at.
      replace (length V - S q)%nat with 0%nat by lia. replace (c0 + Z.of_nat (S q - length V)) with (c0 + Z.of_nat (q - length V) + 1) by lia. exact RS.
    + unfold reader_at. replace (length V - q)%nat with 0%nat by lia. exact RS.
  - destruct R as (R1 & R2 & R3 & R4). assert (LV : length V = (length W + X)%nat) by (unfold V; rewrite app_length, map_length, seq_length; reflexivity).
    unfold dr_taken, dr_addr_valid, dr_addr, dr_step, dr_done, dr_addr_valid. rewrite R1. cbn [andb].
    destruct (dri_ready d); cbn [andb].
    + split.
      * rewrite Hb, R2. rewrite wordat_nth by lia. unfold V. rewrite app_nth2 by lia.
        rewrite (nth_indep _ 0 ((fun j => trunc aw (vp_base pr + (2 ^ aw - Z.of_nat X + Z.of_nat j))) 0%nat)) by (rewrite map_length, seq_length; lia).
        rewrite (map_nth (fun j => trunc aw (vp_base pr + (2 ^ aw - Z.of_nat X + Z.of_nat j))) (seq 0 X) 0%nat), seq_nth by lia. fold V. f_equal. lia.
      * replace (dr_offset s =? dri_length d - 1) with false by (symmetry; apply Z.eqb_neq; rewrite Hl; lia).
        unfold reader_at. destruct (Nat.eqb_spec (length V - S q) 0) as [Z1|N1].
        -- unfold dr_rel. cbn [dr_state dr_offset]. rewrite R2. replace (2 ^ aw - Z.of_nat (length V - q) + 1) with (2 ^ aw) by lia.
           unfold trunc. rewrite Z.mod_same by (apply Z.pow_nonzero; lia). replace (c0 + Z.of_nat (S q - length V)) with 0 by lia. symmetry. apply Z.mod_0_l. lia.
        -- cbn [dr_state dr_offset]. split; [reflexivity|]. rewrite R2. rewrite trunc_id by lia. lia.
    + unfold reader_at. destruct (Nat.eqb_spec (length V - q) 0); [lia|]. cbn [dr_state dr_offset]. auto.
Qed.

Lemma vt_reads_inv : forall n, exists c,
  ((length W <= taken n + c)%nat /\ reader_at (vt_dr (st n)) (length V - (taken n + c)) (c0 + Z.of_nat (taken n + c - length V))) /\
  vt_reads (st n) = map (wordat aw pr V c0) (seq (taken n) c).
Proof.
  assert (LV : length V = (length W + X)%nat) by (unfold V; rewrite app_length, map_length, seq_length; reflexivity).
  induction n as [|n (c & (LW & R) & E)].
  - exists (length W). change (taken 0) with 0%nat. rewrite Nat.add_0_l. split.
    + split; [lia|]. replace (length V - length W)%nat with X by lia. replace (c0 + Z.of_nat (length W - length V)) with c0 by lia. exact HD.
    + change (vt_reads (st 0)) with W. pose proof (wordat_in aw pr V c0) as WI. rewrite LV, seq_app, map_app in WI.
      apply (f_equal (firstn (length W))) in WI. unfold V at 1 in WI. rewrite !firstn_app, map_length, seq_length, Nat.sub_diag, !firstn_O, !app_nil_r, firstn_all in WI.
      rewrite (firstn_all2 (map _ _)) in WI by (rewrite map_length, seq_length; lia). exact WI.
  - rewrite vt_run_S. destruct (vt_head_const n) as [Hh Hv].
    set (d := vt_di depth (st n) (i n)).
    pose proof (reader_step (vt_dr (st n)) (taken n + c) d LW) as RS.
    specialize (RS Hv). unfold d in RS at 1 2. cbn [vt_di dri_base dri_length] in RS. rewrite Hh in RS.
    specialize (RS eq_refl eq_refl R).
    cbn [vt_step vt_dr vt_reads]. fold d.
    set (v := vt_vi (st n) (i n)).
    (* what is taken *)
    assert (TK : (vi_dv v && vo_dready false (vt_tg (st n)) v = true ->
                    taken (S n) = S (taken n) /\ vt_reads (st n) <> []) /\
                 (vi_dv v && vo_dready false (vt_tg (st n)) v = false -> taken (S n) = taken n)).
    { unfold taken, acc. cbn [occurrences plus]. fold (acc n).
      assert (XE : vt_xfer (st n) (i n) = vo_valid (vt_tg (st n)) v && vi_ready v) by reflexivity.
      unfold vo_dready. assert (VV : vi_valid v = true) by exact Hv. rewrite VV. cbn [negb]. rewrite orb_false_r.
      assert (DE : tg_de true (vt_tg (st n)) = (1 <=? Z.of_nat (acc n)) && spec_de p (Z.of_nat (acc n) - 1)).
      { rewrite vt_tg_at. unfold tg_de, spec_de. cbn [tg_at t_hact t_vact]. destruct (1 <=? Z.of_nat (acc n)); reflexivity. }
      assert (PB : vt_xfer (st n) (i n) = true ->
                   pixels_before p (acc n + 1 - 1) = (pixels_before p (acc n - 1) + (if tg_de true (vt_tg (st n)) then 1 else 0))%nat).
      { intros _. rewrite DE. destruct (acc n) as [|k]; [reflexivity|].
        replace (S k + 1 - 1)%nat with (S k) by lia. replace (S k - 1)%nat with k by lia.
        unfold pixels_before. cbn [occurrences plus].
        replace (1 <=? Z.of_nat (S k)) with true by (symmetry; apply Z.leb_le; lia).
        replace (Z.of_nat (S k) - 1) with (Z.of_nat k) by lia. reflexivity. }
      rewrite XE in *. destruct (vo_valid (vt_tg (st n)) v && vi_ready v) eqn:XF.
      - rewrite (PB eq_refl). destruct (tg_de true (vt_tg (st n))) eqn:DT.
        + rewrite andb_true_r. split.
          * intros DV. split; [lia|]. cbn [v vt_vi vi_dv] in DV. apply andb_true_iff in DV as [_ DV].
            destruct (vt_reads (st n)); [discriminate|congruence].
          * intros DV. apply andb_true_iff in XF as [XF _]. unfold vo_valid in XF. rewrite VV, DT, DV in XF. discriminate.
        + rewrite !andb_false_r. split; [discriminate|]. intros _. lia.
      - cbn [andb]. rewrite andb_false_r. split; [discriminate|]. intros _. rewrite Nat.add_0_r. reflexivity. }
    destruct TK as [TK1 TK0].
    destruct (vi_dv v && vo_dready false (vt_tg (st n)) v).
    + destruct (TK1 eq_refl) as [T NE]. rewrite T. destruct c as [|c]; [rewrite E in NE; exfalso; apply NE; reflexivity|].
      rewrite E. cbn [seq map tl].
      destruct (dr_taken aw (vt_dr (st n)) d) as [a|].
      * destruct RS as [EA RS]. exists (S c). split.
        -- replace (S (taken n) + S c)%nat with (S (taken n + S c)) by lia. split; [lia|exact RS].
        -- rewrite seq_S, map_app. cbn [map]. rewrite EA. do 3 f_equal. lia.
      * exists c. split.
        -- replace (S (taken n) + c)%nat with (taken n + S c)%nat by lia. split; [lia|exact RS].
        -- rewrite app_nil_r. reflexivity.
    + rewrite (TK0 eq_refl).
      destruct (dr_taken aw (vt_dr (st n)) d) as [a|].
      * destruct RS as [EA RS]. exists (S c). split.
        -- replace (taken n + S c)%nat with (S (taken n + c)) by lia. split; [lia|exact RS].
        -- rewrite E, seq_S, map_app. cbn [map]. rewrite EA. reflexivity.
      * exists c. split; [split; [exact LW|exact RS]|]. rewrite app_nil_r. exact E.
Qed.

Lemma vt_pixel : forall n, vt_xfer (st n) (i n) = true -> tg_de true (vt_tg (st n)) = true ->
  vi_data (vt_vi (st n) (i n)) = wordat aw pr V c0 (pixels_before p (acc n - 1)).
Proof.
  intros n HX DD. destruct (vt_reads_inv n) as (c & _ & E). cbn [vt_vi vi_data].
  destruct (vt_head_const n) as [_ Hv].
  unfold vt_xfer, vo_transfer, vo_valid in HX. cbn [vt_vi vi_valid vi_dv vi_ready] in HX. rewrite Hv, DD in HX.
  cbn [negb orb andb] in HX. apply andb_true_iff in HX as [HX _]. apply andb_true_iff in HX as [_ HX].
  destruct c as [|c]; [rewrite E in HX; discriminate|]. rewrite E. reflexivity.
Qed.
End Frame.
Lemma reader_init : forall aw pr, 0 < vp_length pr -> reader_at aw pr dr_init 0 0.
Proof. intros aw pr H. unfold reader_at, dr_rel. cbn [Nat.eqb dr_init dr_state]. apply Z.mod_0_l. lia. Qed.
