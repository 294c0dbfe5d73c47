(** Lemmas for C119: a queue that is filled in every clock but some cannot run dry. *)
From Coq Require Import ZArith List Bool Lia Arith.
From Verif Require Import Hdl Trace TimingModel TimingSpec TimingProofs VideoOutModel VideoOutProofs CdcProofs FifoModel FifoProofs OutTopModel OutTopProofs.
Import ListNotations.
Open Scope nat_scope.

(** * Counting *)
Lemma occ_le : forall f a n, occurrences f a n <= n.
Proof. intros f a n. induction n as [|n IH]; cbn [occurrences]; [lia|]. destruct (f (a + n)); lia. Qed.
Lemma occ_within : forall f a m n, m <= n -> occurrences f a m <= occurrences f a n.
Proof. intros f a m n H. replace n with (m + (n - m)) by lia. rewrite occ_app. lia. Qed.

(** * The queue *)
Section Queue.
Variables (issue take idle refuse : nat -> bool) (q : nat -> nat) (D A HV s : nat).
Hypothesis HA : 0 < A.
Hypothesis Hq0 : q 0 = 0.
Hypothesis Hstep : forall n, q (S n) + (if take n then 1 else 0) = q n + (if issue n then 1 else 0).
Hypothesis HqD : forall n, q n <= D.
Hypothesis Hissue : forall n, issue n = true \/ idle n = true \/ refuse n = true \/ q n = D.
Hypothesis Htake : forall n, occurrences take n HV <= A.
Hypothesis Href : forall n, occurrences refuse n HV <= s.
Hypothesis Hidle : forall n k, occurrences idle n k * A <= occurrences issue n k + A.
Hypothesis Hblank : A + s + 2 < HV.

Lemma q_window : forall n k, q (n + k) + occurrences take n k = q n + occurrences issue n k.
Proof.
  intros n k. induction k as [|k IH]; [replace (n + 0) with n by lia; cbn [occurrences]; lia|]. rewrite Nat.add_succ_r. cbn [occurrences].
  pose proof (Hstep (n + k)). lia.
Qed.
Let full n := q n =? D.
Lemma covered : forall n k, k <= occurrences issue n k + occurrences idle n k + occurrences refuse n k + occurrences full n k.
Proof.
  intros n k. induction k as [|k IH]; [lia|]. cbn [occurrences]. unfold full at 2.
  destruct (Hissue (n + k)) as [H|[H|[H|H]]]; rewrite H; try rewrite Nat.eqb_refl; lia.
Qed.

(** Between two clocks with a full queue there are fewer than [HV] others, and the queue loses
    little. *)
Lemma near_full : forall m, q m = D -> forall k, exists j, j <= k /\ k - j < HV /\ q (m + j) = D /\ (forall x, j < x <= k -> q (m + x) <> D).
Proof.
  intros m Hm k. induction k as [|k (j & J1 & J2 & J3 & J4)].
  - exists 0. rewrite Nat.add_0_r. split; [lia|]. split; [lia|]. split; [exact Hm|]. intros; lia.
  - destruct (Nat.eq_dec (q (m + S k)) D) as [Y|N].
    + exists (S k). split; [lia|]. split; [lia|]. split; [exact Y|]. intros; lia.
    + exists j. split; [lia|]. split; [|split; [exact J3|]].
      * destruct (Nat.eq_dec (S k - j) HV) as [EQ|]; [|lia]. exfalso. apply N.
        pose proof (q_window (m + j) HV) as W. pose proof (covered (m + j) HV) as C.
        pose proof (Htake (m + j)) as T. pose proof (Href (m + j)) as R. pose proof (Hidle (m + j) HV) as I.
        assert (F : occurrences full (m + j) HV <= 1).
        { replace HV with (1 + (HV - 1)) by lia. rewrite occ_app. assert (occurrences full (m + j + 1) (HV - 1) = 0).
          { apply occ_zero. intros x X. apply Nat.eqb_neq. replace x with (m + (x - m)) by lia. apply J4. lia. }
          pose proof (occ_le full (m + j) 1). lia. }
        replace (m + j + HV) with (m + S k) in W by lia. pose proof (HqD (m + S k)) as QD.
        assert (ID : occurrences issue (m + j) HV < A -> occurrences idle (m + j) HV <= 1).
        { intros LT. destruct (Nat.le_gt_cases (occurrences idle (m + j) HV) 1) as [|G]; [assumption|].
          pose proof (Nat.mul_le_mono_r 2 (occurrences idle (m + j) HV) A G). lia. }
        lia.
      * intros x X. destruct (Nat.eq_dec x (S k)) as [->|]; [exact N|]. apply J4. lia.
Qed.
Lemma stays_high : forall m, q m = D -> forall n, m <= n -> D <= q n + s + 2.
Proof.
  intros m Hm n Hn. destruct (near_full m Hm (n - m)) as (j & J1 & J2 & J3 & J4). set (L := n - m - j).
  pose proof (q_window (m + j) L) as W. pose proof (covered (m + j) L) as C. replace (m + j + L) with n in W by lia. rewrite J3 in W.
  pose proof (Htake (m + j)) as T. pose proof (Href (m + j)) as R. pose proof (Hidle (m + j) L) as I.
  pose proof (occ_within take (m + j) L HV ltac:(lia)) as TT. pose proof (occ_within refuse (m + j) L HV ltac:(lia)) as RR.
  pose proof (occ_le take (m + j) L) as TL.
  assert (F : occurrences full (m + j) L <= 1).
  { destruct L as [|L'] eqn:EL; [cbn; lia|]. replace (S L') with (1 + L') by lia. rewrite occ_app. assert (occurrences full (m + j + 1) L' = 0).
    { apply occ_zero. intros x X. apply Nat.eqb_neq. replace x with (m + (x - m)) by lia. apply J4. lia. }
    pose proof (occ_le full (m + j) 1). lia. }
  assert (ID : occurrences issue (m + j) L < A -> occurrences idle (m + j) L <= 1).
  { intros LT. destruct (Nat.le_gt_cases (occurrences idle (m + j) L) 1) as [|G]; [assumption|].
    pose proof (Nat.mul_le_mono_r 2 (occurrences idle (m + j) L) A G). lia. }
  lia.
Qed.

(** The queue fills up. *)
Lemma fills : forall c K, c <= A -> A + s + 2 + c <= HV -> D <= K * c -> exists m, m <= K * HV /\ q m = D.
Proof.
  intros c K C1 C2 C3.
  assert (G : forall K, (exists m, m <= K * HV /\ q m = D) \/ ((forall m, m <= K * HV -> q m <> D) /\ K * c <= q (K * HV))).
  { clear K C3. induction K as [|K [(m & M1 & M2)|(N & IH)]].
    - destruct (Nat.eq_dec (q 0) D) as [Y|X]; [left; exists 0; split; [lia|exact Y]|]. right. split; [|lia]. intros m M. replace m with 0 by lia. exact X.
    - left. exists m. split; [lia|exact M2].
    - assert (DEC : forall k, (exists m, m <= k /\ q m = D) \/ (forall m, m <= k -> q m <> D)).
      { induction k as [|k [(m & M1 & M2)|NK]].
        - destruct (Nat.eq_dec (q 0) D) as [Y|X]; [left; exists 0; auto|right; intros m M; replace m with 0 by lia; exact X].
        - left. exists m. split; [lia|exact M2].
        - destruct (Nat.eq_dec (q (S k)) D) as [Y|X]; [left; exists (S k); auto|]. right. intros m M. destruct (Nat.eq_dec m (S k)) as [->|]; [exact X|apply NK; lia]. }
      destruct (DEC (S K * HV)) as [Y|X]; [left; exact Y|]. right. split; [exact X|].
      pose proof (q_window (K * HV) HV) as W. pose proof (covered (K * HV) HV) as C. replace (K * HV + HV) with (S K * HV) in W by lia.
      pose proof (Htake (K * HV)) as T. pose proof (Href (K * HV)) as R. pose proof (Hidle (K * HV) HV) as I.
      assert (F : occurrences full (K * HV) HV = 0) by (apply occ_zero; intros x XX; apply Nat.eqb_neq, X; lia).
      assert (ID : occurrences issue (K * HV) HV < 2 * A -> occurrences idle (K * HV) HV <= 2).
      { intros LT. destruct (Nat.le_gt_cases (occurrences idle (K * HV) HV) 2) as [|GT]; [assumption|].
        pose proof (Nat.mul_le_mono_r 3 (occurrences idle (K * HV) HV) A GT). lia. }
      replace (S K * c) with (c + K * c) by lia. lia. }
  destruct (G K) as [Y|(N & LE)]; [exact Y|]. exists (K * HV). split; [lia|]. pose proof (HqD (K * HV)). lia.
Qed.

(** A word comes back at the latest [lat] clocks after its command. *)
Variables (ret : nat -> bool) (lat : nat).
Hypothesis Hlat : forall m n, m + lat <= n -> occurrences take 0 n < occurrences issue 0 (S m) -> ret n = true.
Hypothesis Hl1 : 1 <= lat.
Hypothesis HD : lat + s + 2 <= D.
Lemma always_there : forall c K, c <= A -> A + s + 2 + c <= HV -> D <= K * c -> forall n, K * HV <= n -> ret n = true /\ 0 < q n.
Proof.
  intros c K C1 C2 C3 n N. destruct (fills c K C1 C2 C3) as (m & M1 & M2). pose proof (stays_high m M2 n ltac:(lia)) as Q.
  split; [|lia]. assert (KC : K * c <= K * HV) by (apply Nat.mul_le_mono_l; lia).
  apply (Hlat (n - lat) n ltac:(lia)). pose proof (q_window 0 n) as W. rewrite Nat.add_0_l, Hq0 in W.
  replace n with (S (n - lat) + (lat - 1)) in W at 3 by lia. rewrite occ_app in W. pose proof (occ_le issue (0 + S (n - lat)) (lat - 1)). lia.
Qed.
End Queue.

(** * The pixels of one frame *)
Lemma pixels_period : forall p, params_ok p -> forall k,
  pixels_before p (k + Z.to_nat ((p_hscan p + 1) * (p_vscan p + 1))) = pixels_before p k + Z.to_nat (p_hres p * p_vres p).
Proof.
  intros p ok k. assert (H1 : (0 < p_hscan p + 1)%Z) by (destruct ok; lia). assert (V1 : (0 < p_vscan p + 1)%Z) by (destruct ok; lia).
  assert (AP : (0 <= p_hres p * p_vres p)%Z) by (destruct ok; apply Z.mul_nonneg_nonneg; lia).
  assert (HP : (0 <= (p_hscan p + 1) * (p_vscan p + 1))%Z) by (apply Z.mul_nonneg_nonneg; lia).
  apply Nat2Z.inj. rewrite Nat2Z.inj_add, Z2Nat.id by exact AP. rewrite !pixels_before_closed by exact ok. cbv zeta.
  rewrite Nat2Z.inj_add, Z2Nat.id by exact HP. unfold scan_x, scan_y.
  replace (Z.of_nat k + (p_hscan p + 1) * (p_vscan p + 1))%Z with (Z.of_nat k + (p_vscan p + 1) * (p_hscan p + 1))%Z by ring.
  rewrite Z.mod_add by lia. rewrite Z.div_add by lia.
  replace (Z.of_nat k / (p_hscan p + 1) + (p_vscan p + 1))%Z with (Z.of_nat k / (p_hscan p + 1) + 1 * (p_vscan p + 1))%Z by ring.
  rewrite Z.mod_add by lia. rewrite Z.div_add by lia. ring.
Qed.
Lemma pixels_mono : forall p a b, a <= b -> pixels_before p a <= pixels_before p b.
Proof. intros p a b H. unfold pixels_before. apply occ_within. exact H. Qed.

(** * The output core *)
Section Core.
Variables (aw : Z) (depth : nat) (pr : vparam) (i : nat -> vt_in).
Let p := vp_t pr.
Let len := vp_length pr.
Hypothesis Haw : (0 <= aw)%Z.
Hypothesis Hlen : (0 < len <= 2 ^ aw)%Z.
Hypothesis ok : params_ok p.
Hypothesis HA : (len = p_hres p * p_vres p)%Z.
Hypothesis Hpush : forall n q, ti_push (i n) = Some q -> q = pr.
Let st := at_ (vt_step aw depth) {| vt_tg := tg_init; vt_dr := dr_init; vt_q := [pr]; vt_reads := [] |} i.
Hypothesis Hq : forall n, vt_q (st n) <> [].
Hypothesis Hready : forall n, ti_ready (i n) = true.

Definition c_issue n := match dr_taken aw (vt_dr (st n)) (vt_di depth (st n) (i n)) with Some _ => true | None => false end.
Definition c_take n := tg_de true (vt_tg (st n)) && vi_dv (vt_vi (st n) (i n)).
Definition c_idle n := match dr_state (vt_dr (st n)) with DR_IDLE => true | _ => false end.
Definition c_refuse n := negb (ti_mem (i n)).
Definition c_q n := length (vt_reads (st n)).
Let acc n := occurrences (fun m => vt_xfer (st m) (i m)) 0 n.
Let HV := Z.to_nat ((p_hscan p + 1) * (p_vscan p + 1)).
Let A := Z.to_nat len.

Lemma valid_n : forall n, vt_valid (st n) = true /\ vt_head (st n) (i n) = pr.
Proof. intros n. destruct (vt_head_const aw depth pr i Hpush dr_init [] Hq n) as [B C]. fold st in B, C. auto. Qed.
Lemma take_is : forall n, vi_dv (vt_vi (st n) (i n)) && vo_dready false (vt_tg (st n)) (vt_vi (st n) (i n)) = c_take n.
Proof.
  intros n. destruct (valid_n n) as [V _]. unfold c_take, vo_dready, vo_valid. cbn [vt_vi vi_valid vi_ready]. rewrite V, Hready.
  set (dv := vi_dv _). destruct dv, (tg_de true (vt_tg (st n))); reflexivity.
Qed.
Lemma xfer_is : forall n, vt_xfer (st n) (i n) = negb (tg_de true (vt_tg (st n))) || c_take n.
Proof.
  intros n. destruct (valid_n n) as [V _]. unfold vt_xfer, vo_transfer, vo_valid, c_take. cbn [vt_vi vi_valid vi_ready]. rewrite V, Hready.
  set (dv := vi_dv _). destruct dv, (tg_de true (vt_tg (st n))); reflexivity.
Qed.
Lemma q_step : forall n, c_q (S n) + (if c_take n then 1 else 0) = c_q n + (if c_issue n then 1 else 0).
Proof.
  intros n. unfold c_q. change (st (S n)) with (vt_step aw depth (st n) (i n)). unfold vt_step. cbv zeta. cbn [vt_reads].
  rewrite take_is, app_length. unfold c_issue. assert (NE : c_take n = true -> vt_reads (st n) <> []).
  { unfold c_take. intros T. apply andb_prop in T as [_ T]. cbn [vt_vi vi_dv] in T. destruct (vt_reads (st n)); [rewrite andb_false_r in T; discriminate|congruence]. }
  destruct (c_take n); destruct (dr_taken aw (vt_dr (st n)) (vt_di depth (st n) (i n))); destruct (vt_reads (st n)); cbn [length tl]; try lia; exfalso; apply NE; reflexivity.
Qed.
Lemma q_max : forall n, c_q n <= depth.
Proof.
  induction n as [|n IH]; [cbn; lia|]. pose proof (q_step n) as S1.
  assert (LT : c_issue n = true -> c_q n < depth).
  { unfold c_issue, dr_taken. cbn [vt_di dri_ready]. destruct (dr_addr_valid (vt_dr (st n))); [|discriminate]. cbn [andb].
    destruct (ti_mem (i n)); [|discriminate]. cbn [andb]. destruct (Nat.ltb_spec (length (vt_reads (st n))) depth); [|discriminate]. auto. }
  destruct (c_issue n); [specialize (LT eq_refl)|]; destruct (c_take n); lia.
Qed.
Lemma reader_ok : forall n, exists c : Z, (0 <= c)%Z /\ dr_rel len (vt_dr (st n)) c.
Proof.
  induction n as [|n (c & C0 & R)].
  - exists 0%Z. split; [lia|]. unfold dr_rel. change (dr_state (vt_dr (st 0))) with DR_IDLE. cbv iota. rewrite Z.mod_0_l by lia. reflexivity.
  - destruct (valid_n n) as [V Hh]. change (st (S n)) with (vt_step aw depth (st n) (i n)). unfold vt_step. cbv zeta. cbn [vt_dr].
    pose proof (dr_rel_step aw (vp_base pr) len Haw Hlen (vt_dr (st n)) c (vt_di depth (st n) (i n)) C0 V
      ltac:(cbn [vt_di dri_base]; rewrite Hh; reflexivity) ltac:(cbn [vt_di dri_length]; rewrite Hh; reflexivity) R) as S1.
    destruct (dr_taken aw (vt_dr (st n)) (vt_di depth (st n) (i n))); [exists (c + 1)%Z; split; [lia|apply S1]|exists c; split; [lia|exact S1]].
Qed.
Lemma issue_or : forall n, c_issue n = true \/ c_idle n = true \/ c_refuse n = true \/ c_q n = depth.
Proof.
  intros n. destruct (reader_ok n) as (c & _ & R). unfold dr_rel in R. unfold c_issue, c_idle, c_refuse, dr_taken, dr_addr_valid. cbn [vt_di dri_ready].
  destruct (dr_state (vt_dr (st n))); [auto| |contradiction]. cbn [andb]. destruct (ti_mem (i n)); [|auto]. cbn [andb].
  destruct (Nat.ltb_spec (length (vt_reads (st n))) depth) as [L|L]; [auto|]. pose proof (q_max n). unfold c_q in *. right; right; right. lia.
Qed.
Lemma idle_bound : forall n k, occurrences c_idle n k * A <= occurrences c_issue n k + A.
Proof.
  intros n k.
  assert (G : (0 < occurrences c_idle n k) -> match dr_state (vt_dr (st (n + k))) with
     | DR_IDLE => occurrences c_idle n k * A <= occurrences c_issue n k
     | DR_READ => occurrences c_idle n k * A + Z.to_nat (dr_offset (vt_dr (st (n + k)))) <= occurrences c_issue n k + A
     | DR_WAIT_SOF => True end).
  { induction k as [|k IH]; [cbn [occurrences]; lia|]. cbn [occurrences]. rewrite Nat.add_succ_r.
    change (st (S (n + k))) with (vt_step aw depth (st (n + k)) (i (n + k))). unfold vt_step. cbv zeta. cbn [vt_dr].
    destruct (valid_n (n + k)) as [V Hh]. destruct (reader_ok (n + k)) as (c & C0 & R). unfold dr_rel in R.
    pose proof (Z.mod_pos_bound c len ltac:(lia)) as MB.
    assert (ID : c_idle (n + k) = match dr_state (vt_dr (st (n + k))) with DR_IDLE => true | _ => false end) by reflexivity.
    assert (IS : c_issue (n + k) = match dr_state (vt_dr (st (n + k))) with DR_READ => dri_ready (vt_di depth (st (n + k)) (i (n + k))) | _ => false end).
    { unfold c_issue, dr_taken, dr_addr_valid. destruct (dr_state (vt_dr (st (n + k)))); [reflexivity| |reflexivity]. cbn [andb]. destruct (dri_ready _); reflexivity. }
    rewrite ID, IS. unfold dr_step, dr_done, dr_addr_valid. cbn [dr_state dr_offset].
    assert (VV : dri_valid (vt_di depth (st (n + k)) (i (n + k))) = true) by exact V.
    assert (LL : dri_length (vt_di depth (st (n + k)) (i (n + k))) = len) by (cbn [vt_di dri_length]; rewrite Hh; reflexivity).
    rewrite VV, LL.
    destruct (dr_state (vt_dr (st (n + k)))) eqn:ST; [| |contradiction].
    - intros _. cbn [andb]. destruct (Nat.eq_dec (occurrences c_idle n k) 0) as [Z0|NZ]; [rewrite Z0; lia|]. specialize (IH ltac:(lia)).
      replace ((occurrences c_idle n k + 1) * A) with (occurrences c_idle n k * A + A) by ring. lia.
    - rewrite Nat.add_0_r. intros P. specialize (IH P). cbn [andb]. rewrite R in *.
      destruct (dri_ready (vt_di depth (st (n + k)) (i (n + k)))); cbn [andb].
      + destruct (Z.eqb_spec (c mod len) (len - 1)) as [EE|EE]; [unfold A in *; lia|]. rewrite trunc_id by lia. lia.
      + lia. }
  destruct (Nat.eq_dec (occurrences c_idle n k) 0) as [->|NZ]; [lia|]. specialize (G ltac:(lia)).
  destruct (reader_ok (n + k)) as (c & C0 & R). unfold dr_rel in R. destruct (dr_state (vt_dr (st (n + k)))); [lia| |contradiction]. lia.
Qed.
Lemma take_pixels : forall n k, pixels_before p (acc n - 1) + occurrences c_take n k = pixels_before p (acc (n + k) - 1).
Proof.
  intros n k. induction k as [|k IH]; [replace (n + 0) with n by lia; cbn [occurrences]; lia|]. cbn [occurrences]. rewrite Nat.add_assoc, IH, Nat.add_succ_r.
  set (m := n + k). change (acc (S m)) with (acc m + if vt_xfer (st m) (i m) then 1 else 0).
  pose proof (vt_tg_at aw depth pr i ok Hpush dr_init [] Hq m) as TG. fold st in TG. cbv beta in TG. fold (acc m) in TG. fold p in TG.
  assert (DE : tg_de true (vt_tg (st m)) = ((1 <=? Z.of_nat (acc m)) && spec_de p (Z.of_nat (acc m) - 1))%Z).
  { rewrite TG. unfold tg_de, spec_de. cbn [tg_at t_hact t_vact]. destruct (1 <=? Z.of_nat (acc m))%Z; reflexivity. }
  rewrite xfer_is. destruct (c_take m) eqn:T.
  - assert (D1 : tg_de true (vt_tg (st m)) = true) by (unfold c_take in T; apply andb_prop in T as [T _]; exact T).
    rewrite orb_true_r. rewrite DE in D1. apply andb_prop in D1 as [D1 D2]. apply Z.leb_le in D1.
    replace (acc m + 1 - 1) with (S (acc m - 1)) by lia. unfold pixels_before. cbn [occurrences]. rewrite Nat.add_0_l.
    replace (Z.of_nat (acc m - 1)) with (Z.of_nat (acc m) - 1)%Z by lia. rewrite D2. reflexivity.
  - rewrite orb_false_r. destruct (tg_de true (vt_tg (st m))) eqn:D1; cbn [negb]; [rewrite !Nat.add_0_r; reflexivity|].
    destruct (acc m) as [|a] eqn:AM; [reflexivity|]. replace (S a + 1 - 1) with (S a) by lia. replace (S a - 1) with a by lia.
    unfold pixels_before. cbn [occurrences]. rewrite Nat.add_0_l. replace (Z.of_nat a) with (Z.of_nat (S a) - 1)%Z by lia.
    replace (1 <=? Z.of_nat (S a))%Z with true in DE by (symmetry; apply Z.leb_le; lia). cbn [andb] in DE. rewrite <- DE. reflexivity.
Qed.
Lemma take_frame : forall n, occurrences c_take n HV <= A.
Proof.
  intros n. pose proof (take_pixels n HV) as T. pose proof (pixels_period p ok (acc n - 1)) as P. fold HV in P. rewrite <- HA in P. fold A in P.
  assert (AC : acc (n + HV) <= acc n + HV) by (unfold acc; rewrite occ_app; pose proof (occ_le (fun m => vt_xfer (st m) (i m)) (0 + n) HV); lia).
  pose proof (pixels_mono p (acc (n + HV) - 1) (acc n - 1 + HV) ltac:(lia)). lia.
Qed.

Variables (lat s K : nat).
Hypothesis Href : forall n, occurrences c_refuse n HV <= s.
Hypothesis Hlat : forall m n, m + lat <= n -> occurrences c_take 0 n < occurrences c_issue 0 (S m) -> ti_ret (i n) = true.
Hypothesis Hl1 : 1 <= lat.
Hypothesis HD : lat + s + 2 <= depth.
Lemma core_there : forall c, c <= A -> A + s + 2 + c <= HV -> 0 < c -> depth <= K * c ->
  forall n, K * HV <= n -> vi_dv (vt_vi (st n) (i n)) = true.
Proof.
  intros c C1 C2 C3 C4 n N.
  destruct (always_there c_issue c_take c_idle c_refuse c_q depth A HV s ltac:(unfold A; lia) eq_refl q_step q_max issue_or take_frame Href idle_bound
    ltac:(lia) (fun n => ti_ret (i n)) lat Hlat Hl1 HD c K C1 C2 C4 n N) as [X Y].
  cbn [vt_vi vi_dv]. rewrite X. unfold c_q in Y. destruct (vt_reads (st n)); [cbn in Y; lia|reflexivity].
Qed.
End Core.
