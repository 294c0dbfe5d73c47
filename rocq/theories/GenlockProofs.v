(** Lemmas for the genlock mode. *)
From Coq Require Import ZArith List Bool Lia Arith.
From Verif Require Import Hdl Trace CdcProofs VideoOutModel VideoOutProps FifoModel GenlockModel.
Import ListNotations.
Open Scope nat_scope.

(** * One frame of the reader *)
Section Frame.
Variables (aw delay : Z) (i : nat -> dr_in) (base len : Z) (r e : nat).
Let st := dr_run true aw delay i.
Let off0 := trunc aw delay.
Let vs (t : nat) : bool := dri_vsync (i t).
Let tk (t : nat) : option Z := dr_taken aw (st t) (i t).
Let N := Z.to_nat (len - off0).
Let full (k : nat) : Z := ((base + off0 + Z.of_nat k) mod 2 ^ aw)%Z.
Hypothesis Haw : (0 <= aw)%Z.
Hypothesis Hlen : (off0 < len <= 2 ^ aw)%Z.
Hypothesis RE : r < e.
Hypothesis Hc : forall t, r <= t < e -> dri_valid (i t) = true /\ dri_base (i t) = base /\ dri_length (i t) = len.
Hypothesis Hrise : rises vs r = true.
Hypothesis Hno : forall t, r < t < e -> rises vs t = false.
Hypothesis Hwait : dr_state (st r) = DR_WAIT_SOF.
Hypothesis Hsof : dr_sof (st r) = false.

Lemma fr_S : forall t, st (S t) = dr_step true aw delay (st t) (i t).
Proof. reflexivity. Qed.
Lemma fr_v : forall t, dr_v (st (S t)) = vs t.
Proof. reflexivity. Qed.
Lemma fr_vr : forall t, dr_v_r (st (S t)) = dr_v (st t).
Proof. reflexivity. Qed.
Lemma fr_sof : forall t, dr_sof (st (S (S t))) = rises vs t.
Proof.
  intros t. change (dr_sof (st (S (S t)))) with (dr_v (st (S t)) && negb (dr_v_r (st (S t)))). rewrite fr_v, fr_vr.
  unfold rises. destruct t; reflexivity.
Qed.

Lemma fr_v0 : dr_v (st r) = false.
Proof.
  unfold rises in Hrise. destruct r as [|q]; [reflexivity|]. rewrite fr_v. apply andb_prop in Hrise as [_ H]. destruct (vs q); [discriminate|reflexivity].
Qed.
Lemma fr_sof1 : dr_sof (st (r + 1)) = false.
Proof. rewrite Nat.add_1_r. change (dr_sof (st (S r))) with (dr_v (st r) && negb (dr_v_r (st r))). rewrite fr_v0. reflexivity. Qed.
Lemma fr_sof2 : dr_sof (st (r + 2)) = true.
Proof. replace (r + 2) with (S (S r)) by lia. rewrite fr_sof. exact Hrise. Qed.
Lemma fr_sof3 : forall m, 3 <= m -> r + m <= e -> dr_sof (st (r + m)) = false.
Proof. intros m M L. replace (r + m) with (S (S (r + m - 2))) by lia. rewrite fr_sof. apply Hno. lia. Qed.

Lemma off0_range : (0 <= off0 < 2 ^ aw)%Z.
Proof. apply trunc_range. exact Haw. Qed.

Definition fr_phase (m : nat) : Prop :=
  let c := length (collect tk r m) in
  collect tk r m = map full (seq 0 c) /\
  match m with
  | 0 | 1 | 2 => c = 0 /\ dr_state (st (r + m)) = DR_WAIT_SOF
  | 3 => c = 0 /\ dr_state (st (r + m)) = DR_IDLE
  | _ => (dr_state (st (r + m)) = DR_READ /\ dr_offset (st (r + m)) = (off0 + Z.of_nat c)%Z /\ c < N) \/
         (dr_state (st (r + m)) = DR_WAIT_SOF /\ c = N)
  end.

Lemma fr_none : forall t, dr_state (st t) <> DR_READ -> tk t = None.
Proof. intros t H. unfold tk, dr_taken, dr_addr_valid. destruct (dr_state (st t)); [reflexivity|contradiction|reflexivity]. Qed.

Lemma fr_run : forall m, r + m <= e -> fr_phase m.
Proof.
  pose proof off0_range as OR.
  induction m as [|m IH]; intros L.
  - unfold fr_phase. cbn [collect length seq map]. rewrite Nat.add_0_r. auto.
  - specialize (IH ltac:(lia)). destruct (Hc (r + m) ltac:(lia)) as (V & B & E).
    unfold fr_phase in IH |- *. cbv zeta in IH |- *. destruct IH as [IC IP].
    assert (SN : st (r + S m) = dr_step true aw delay (st (r + m)) (i (r + m))) by (rewrite Nat.add_succ_r; apply fr_S).
    cbn [collect]. rewrite SN.
    destruct m as [|[|[|[|m]]]].
    + destruct IP as [C S0]. rewrite (fr_none (r + 0)) by (rewrite S0; discriminate). rewrite app_nil_r. split; [exact IC|]. split; [exact C|].
      unfold dr_step; cbn [dr_state]. rewrite S0. rewrite Nat.add_0_r, Hsof. reflexivity.
    + destruct IP as [C S0]. rewrite (fr_none (r + 1)) by (rewrite S0; discriminate). rewrite app_nil_r. split; [exact IC|]. split; [exact C|].
      unfold dr_step; cbn [dr_state]. rewrite S0. rewrite fr_sof1. reflexivity.
    + destruct IP as [C S0]. rewrite (fr_none (r + 2)) by (rewrite S0; discriminate). rewrite app_nil_r. split; [exact IC|]. split; [exact C|].
      unfold dr_step; cbn [dr_state]. rewrite S0. rewrite fr_sof2. reflexivity.
    + destruct IP as [C S0]. rewrite (fr_none (r + 3)) by (rewrite S0; discriminate). rewrite app_nil_r. split; [exact IC|]. left.
      unfold dr_step; cbn [dr_state dr_offset]. rewrite S0, V, C. split; [reflexivity|]. fold off0. unfold N. lia.
    + set (M := S (S (S (S m)))) in *. destruct IP as [(S0 & O & C)|[S0 C]].
      * assert (T : tk (r + M) = if dri_ready (i (r + M)) then Some (full (length (collect tk r M))) else None).
        { unfold tk, dr_taken, dr_addr_valid, dr_addr. rewrite S0, O, B. cbn [andb]. destruct (dri_ready (i (r + M))); [|reflexivity].
          unfold full, trunc. rewrite Z.add_assoc. reflexivity. }
        rewrite T. unfold dr_step; cbn [dr_state dr_offset]. unfold dr_done, dr_addr_valid. rewrite S0, O, E. cbn [andb].
        destruct (dri_ready (i (r + M))); cbn [andb].
        -- rewrite app_length. cbn [length]. split.
           { rewrite seq_app, map_app, <- IC. reflexivity. }
           destruct (Z.eqb_spec (off0 + Z.of_nat (length (collect tk r M))) (len - 1)) as [Q|Q].
           { right. split; [reflexivity|]. unfold N in *. lia. }
           left. split; [reflexivity|]. split; [|unfold N in *; lia]. rewrite trunc_id; [lia|]. unfold N in *. lia.
        -- rewrite app_nil_r. split; [exact IC|]. left. auto.
      * rewrite (fr_none (r + M)) by (rewrite S0; discriminate). rewrite app_nil_r. split; [exact IC|]. right.
        unfold dr_step; cbn [dr_state]. rewrite S0, fr_sof3 by lia. auto.
Qed.

(** Acceptances of the memory count as long as the pass is not over. *)
Lemma fr_count : forall m, r + m <= e -> 4 <= m ->
  length (collect tk r m) = Nat.min N (occurrences (fun t => dri_ready (i t)) (r + 4) (m - 4)).
Proof.
  induction m as [|m IH]; intros L H; [lia|]. destruct (Nat.eq_dec m 3) as [->|NE].
  - destruct (fr_run 3 ltac:(lia)) as [_ [C3 S3]].
    assert (E4 : collect tk r 4 = collect tk r 3).
    { change (collect tk r 4) with (collect tk r 3 ++ match tk (r + 3) with Some x => [x] | None => [] end).
      rewrite (fr_none (r + 3)) by (rewrite S3; discriminate). apply app_nil_r. }
    rewrite E4, C3. cbn [Nat.sub occurrences]. rewrite Nat.min_0_r. reflexivity.
  - specialize (IH ltac:(lia) ltac:(lia)). destruct (fr_run m ltac:(lia)) as [_ P].
    replace (S m - 4) with (S (m - 4)) by lia. cbn [occurrences]. replace (r + 4 + (m - 4)) with (r + m) by lia.
    cbn [collect]. rewrite app_length. destruct m as [|[|[|[|m]]]]; try lia. set (M := S (S (S (S m)))) in *.
    destruct P as [(S0 & O & C)|[S0 C]].
    + unfold tk at 2. unfold dr_taken, dr_addr_valid. rewrite S0. cbn [andb]. destruct (dri_ready (i (r + M))); cbn [length]; lia.
    + rewrite (fr_none (r + M)) by (rewrite S0; discriminate). cbn [length]. lia.
Qed.

Lemma fr_wait_iff : r + 4 <= e -> dr_state (st e) = DR_WAIT_SOF <-> length (collect tk r (e - r)) = N.
Proof.
  intros H. destruct (fr_run (e - r) ltac:(lia)) as [_ P]. replace (r + (e - r)) with e in P by lia.
  remember (e - r) as m. destruct m as [|[|[|[|m]]]]; try lia.
  destruct P as [(S0 & O & C)|[S0 C]]; rewrite S0; split; intros X; (discriminate || lia || reflexivity || exact C).
Qed.
Lemma fr_le : forall m, r + m <= e -> length (collect tk r m) <= N.
Proof.
  intros m L. destruct (fr_run m L) as [_ P]. destruct m as [|[|[|[|m]]]]; try (destruct P as [C _]; lia).
  destruct P as [(_ & _ & C)|[_ C]]; lia.
Qed.
Lemma fr_early : forall m, r + m <= e -> m <= 4 -> length (collect tk r m) = 0.
Proof.
  intros m L M. destruct (Nat.eq_dec m 4) as [->|].
  - destruct (fr_run 3 ltac:(lia)) as [_ [C S3]].
    change (collect tk r 4) with (collect tk r 3 ++ match tk (r + 3) with Some x => [x] | None => [] end).
    rewrite (fr_none (r + 3)) by (rewrite S3; discriminate). rewrite app_nil_r. exact C.
  - destruct (fr_run m L) as [_ P]. destruct m as [|[|[|[|m]]]]; try lia; destruct P as [C _]; exact C.
Qed.
End Frame.

(** * The core *)
Section Core.
Variables (aw delay : Z) (depth : nat) (i : nat -> gl_in).
Let st := gl_run aw delay depth i.
Definition gl_fin (t : nat) : dr_in := gl_di depth (gl_run aw delay depth i t) (i t).
Let tk (t : nat) : option Z := dr_taken aw (dr_run true aw delay gl_fin t) (gl_fin t).
Let sh (t : nat) : option Z := gl_shown (st t) (i t).

Lemma gl_dr_run : forall t, gl_dr (st t) = dr_run true aw delay gl_fin t.
Proof.
  induction t as [|t IH]; [reflexivity|]. change (st (S t)) with (gl_step aw delay depth (st t) (i t)).
  unfold gl_step; cbn [gl_dr]. rewrite IH. reflexivity.
Qed.

(** What was on the way at [r] and read since is what was shown since and what is
    still on the way. *)
Lemma gl_conserve : forall r m, (forall t, r <= t < r + m -> gli_valid (i t) = true) ->
  gl_reads (st r) ++ collect tk r m = collect sh r m ++ gl_reads (st (r + m)).
Proof.
  intros r. induction m as [|m IH]; intros H; [rewrite Nat.add_0_r; cbn [collect]; rewrite app_nil_r; reflexivity|].
  specialize (IH (fun t T => H t ltac:(lia))). cbn [collect]. rewrite app_assoc, IH, <- !app_assoc. f_equal.
  rewrite Nat.add_succ_r. change (st (S (r + m))) with (gl_step aw delay depth (st (r + m)) (i (r + m))).
  unfold gl_step; cbn [gl_reads]. unfold tk. rewrite <- gl_dr_run. fold (gl_fin (r + m)).
  unfold sh, gl_shown, gl_dready. rewrite (H (r + m) ltac:(lia)). cbn [negb].
  rewrite app_assoc. f_equal. set (s := st (r + m)) in *. set (x := i (r + m)).
  destruct (gl_svalid s x && gli_ready x && gli_de x) eqn:B.
  - apply andb_prop in B as [B D]. apply andb_prop in B as [B _]. unfold gl_svalid in B. rewrite D in B. cbn [negb orb] in B.
    apply andb_prop in B as [_ B]. rewrite B. cbn [andb]. unfold gl_dv in B. apply andb_prop in B as [_ B].
    destruct (gl_reads s); [discriminate|reflexivity].
  - rewrite andb_false_r. reflexivity.
Qed.
End Core.
