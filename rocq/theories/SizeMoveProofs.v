(** Lemmas for C126: the queue of SizingProofs.v while the base address moves. *)
From Coq Require Import ZArith List Bool Lia Arith.
From Verif Require Import Hdl Trace TimingModel TimingSpec TimingProofs VideoOutModel VideoOutProofs CdcProofs FifoModel FifoProofs OutTopModel OutTopProofs
  TearProps SizingProofs.
Import ListNotations.
Open Scope nat_scope.

(** The output core, whose parameter set may change at any clock as long as the mode [p] and the
    length [len] stay; of SizingProofs.v's core this differs in [H0], [HS] and [Hhead] only. *)
Section Core.
Variables (aw : Z) (depth : nat) (p : fparam) (len : Z) (st : nat -> vt_st) (i : nat -> vt_in).
Hypothesis Haw : (0 <= aw)%Z.
Hypothesis Hlen : (0 < len <= 2 ^ aw)%Z.
Hypothesis ok : params_ok p.
Hypothesis HA : (len = p_hres p * p_vres p)%Z.
Hypothesis H0 : vt_tg (st 0) = tg_init /\ vt_dr (st 0) = dr_init /\ vt_reads (st 0) = [].
Hypothesis HS : forall n, vt_tg (st (S n)) = vt_tg (vt_step aw depth (st n) (i n)) /\
  vt_dr (st (S n)) = vt_dr (vt_step aw depth (st n) (i n)) /\ vt_reads (st (S n)) = vt_reads (vt_step aw depth (st n) (i n)).
Hypothesis Hhead : forall n, vp_t (vt_head (st n) (i n)) = p /\ vp_length (vt_head (st n) (i n)) = len /\ vt_valid (st n) = true.
Hypothesis Hready : forall n, ti_ready (i n) = true.

Definition m_issue n := match dr_taken aw (vt_dr (st n)) (vt_di depth (st n) (i n)) with Some _ => true | None => false end.
Definition m_take n := tg_de true (vt_tg (st n)) && vi_dv (vt_vi (st n) (i n)).
Definition m_idle n := match dr_state (vt_dr (st n)) with DR_IDLE => true | _ => false end.
Definition m_refuse n := negb (ti_mem (i n)).
Definition m_q n := length (vt_reads (st n)).
Let acc n := occurrences (fun m => vt_xfer (st m) (i m)) 0 n.
Let HV := Z.to_nat ((p_hscan p + 1) * (p_vscan p + 1)).
Let A := Z.to_nat len.

Lemma valid_n : forall n, vt_valid (st n) = true /\ vp_length (vt_head (st n) (i n)) = len.
Proof. intros n. destruct (Hhead n) as (_ & X1 & X2). auto. Qed.
Lemma take_is : forall n, vi_dv (vt_vi (st n) (i n)) && vo_dready false (vt_tg (st n)) (vt_vi (st n) (i n)) = m_take n.
Proof.
  intros n. destruct (valid_n n) as [V _]. unfold m_take, vo_dready, vo_valid. cbn [vt_vi vi_valid vi_ready]. rewrite V, Hready.
  set (dv := vi_dv _). destruct dv, (tg_de true (vt_tg (st n))); reflexivity.
Qed.
Lemma xfer_is : forall n, vt_xfer (st n) (i n) = negb (tg_de true (vt_tg (st n))) || m_take n.
Proof.
  intros n. destruct (valid_n n) as [V _]. unfold vt_xfer, vo_transfer, vo_valid, m_take. cbn [vt_vi vi_valid vi_ready]. rewrite V, Hready.
  set (dv := vi_dv _). destruct dv, (tg_de true (vt_tg (st n))); reflexivity.
Qed.
Lemma q_step : forall n, m_q (S n) + (if m_take n then 1 else 0) = m_q n + (if m_issue n then 1 else 0).
Proof.
  intros n. unfold m_q. rewrite (proj2 (proj2 (HS n))). unfold vt_step. cbv zeta. cbn [vt_reads].
  rewrite take_is, app_length. unfold m_issue. assert (NE : m_take n = true -> vt_reads (st n) <> []).
  { unfold m_take. intros T. apply andb_prop in T as [_ T]. cbn [vt_vi vi_dv] in T. destruct (vt_reads (st n)); [rewrite andb_false_r in T; discriminate|congruence]. }
  destruct (m_take n); destruct (dr_taken aw (vt_dr (st n)) (vt_di depth (st n) (i n))); destruct (vt_reads (st n)); cbn [length tl]; try lia; exfalso; apply NE; reflexivity.
Qed.
Lemma q_max : forall n, m_q n <= depth.
Proof.
  induction n as [|n IH]; [unfold m_q; rewrite (proj2 (proj2 H0)); cbn; lia|]. pose proof (q_step n) as S1.
  assert (LT : m_issue n = true -> m_q n < depth).
  { unfold m_issue, dr_taken. cbn [vt_di dri_ready]. destruct (dr_addr_valid (vt_dr (st n))); [|discriminate]. cbn [andb].
    destruct (ti_mem (i n)); [|discriminate]. cbn [andb]. destruct (Nat.ltb_spec (length (vt_reads (st n))) depth); [|discriminate]. auto. }
  destruct (m_issue n); [specialize (LT eq_refl)|]; destruct (m_take n); lia.
Qed.
Lemma reader_ok : forall n, exists c : Z, (0 <= c)%Z /\ dr_rel len (vt_dr (st n)) c.
Proof.
  induction n as [|n (c & C0 & R)].
  - exists 0%Z. split; [lia|]. unfold dr_rel. rewrite (proj1 (proj2 H0)). change (dr_state dr_init) with DR_IDLE. cbv iota. rewrite Z.mod_0_l by lia. reflexivity.
  - destruct (valid_n n) as [V Hh]. rewrite (proj1 (proj2 (HS n))). unfold vt_step. cbv zeta. cbn [vt_dr].
    pose proof (dr_rel_step aw (vp_base (vt_head (st n) (i n))) len Haw Hlen (vt_dr (st n)) c (vt_di depth (st n) (i n)) C0 V
      eq_refl Hh R) as S1.
    destruct (dr_taken aw (vt_dr (st n)) (vt_di depth (st n) (i n))); [exists (c + 1)%Z; split; [lia|apply S1]|exists c; split; [lia|exact S1]].
Qed.
Lemma issue_or : forall n, m_issue n = true \/ m_idle n = true \/ m_refuse n = true \/ m_q n = depth.
Proof.
  intros n. destruct (reader_ok n) as (c & _ & R). unfold dr_rel in R. unfold m_issue, m_idle, m_refuse, dr_taken, dr_addr_valid. cbn [vt_di dri_ready].
  destruct (dr_state (vt_dr (st n))); [auto| |contradiction]. cbn [andb]. destruct (ti_mem (i n)); [|auto]. cbn [andb].
  destruct (Nat.ltb_spec (length (vt_reads (st n))) depth) as [L|L]; [auto|]. pose proof (q_max n). unfold m_q in *. right; right; right. lia.
Qed.
Lemma idle_bound : forall n k, occurrences m_idle n k * A <= occurrences m_issue n k + A.
Proof.
  intros n k.
  assert (G : (0 < occurrences m_idle n k) -> match dr_state (vt_dr (st (n + k))) with
     | DR_IDLE => occurrences m_idle n k * A <= occurrences m_issue n k
     | DR_READ => occurrences m_idle n k * A + Z.to_nat (dr_offset (vt_dr (st (n + k)))) <= occurrences m_issue n k + A
     | DR_WAIT_SOF => True end).
  { induction k as [|k IH]; [cbn [occurrences]; lia|]. cbn [occurrences]. rewrite Nat.add_succ_r.
    rewrite (proj1 (proj2 (HS (n + k)))). unfold vt_step. cbv zeta. cbn [vt_dr].
    destruct (valid_n (n + k)) as [V Hh]. destruct (reader_ok (n + k)) as (c & C0 & R). unfold dr_rel in R.
    pose proof (Z.mod_pos_bound c len ltac:(lia)) as MB.
    assert (ID : m_idle (n + k) = match dr_state (vt_dr (st (n + k))) with DR_IDLE => true | _ => false end) by reflexivity.
    assert (IS : m_issue (n + k) = match dr_state (vt_dr (st (n + k))) with DR_READ => dri_ready (vt_di depth (st (n + k)) (i (n + k))) | _ => false end).
    { unfold m_issue, dr_taken, dr_addr_valid. destruct (dr_state (vt_dr (st (n + k)))); [reflexivity| |reflexivity]. cbn [andb]. destruct (dri_ready _); reflexivity. }
    rewrite ID, IS. unfold dr_step, dr_done, dr_addr_valid. cbn [dr_state dr_offset].
    assert (VV : dri_valid (vt_di depth (st (n + k)) (i (n + k))) = true) by exact V.
    assert (LL : dri_length (vt_di depth (st (n + k)) (i (n + k))) = len) by exact Hh.
    rewrite VV, LL.
    destruct (dr_state (vt_dr (st (n + k)))) eqn:ST; [| |contradiction].
    - intros _. cbn [andb]. destruct (Nat.eq_dec (occurrences m_idle n k) 0) as [Z0|NZ]; [rewrite Z0; lia|]. specialize (IH ltac:(lia)).
      replace ((occurrences m_idle n k + 1) * A) with (occurrences m_idle n k * A + A) by ring. lia.
    - rewrite Nat.add_0_r. intros P. specialize (IH P). cbn [andb]. rewrite R in *.
      destruct (dri_ready (vt_di depth (st (n + k)) (i (n + k)))); cbn [andb].
      + destruct (Z.eqb_spec (c mod len) (len - 1)) as [EE|EE]; [unfold A in *; lia|]. rewrite trunc_id by lia. lia.
      + lia. }
  destruct (Nat.eq_dec (occurrences m_idle n k) 0) as [->|NZ]; [lia|]. specialize (G ltac:(lia)).
  destruct (reader_ok (n + k)) as (c & C0 & R). unfold dr_rel in R. destruct (dr_state (vt_dr (st (n + k)))); [lia| |contradiction]. lia.
Qed.
Lemma take_pixels : forall n k, pixels_before p (acc n - 1) + occurrences m_take n k = pixels_before p (acc (n + k) - 1).
Proof.
  intros n k. induction k as [|k IH]; [replace (n + 0) with n by lia; cbn [occurrences]; lia|]. cbn [occurrences]. rewrite Nat.add_assoc, IH, Nat.add_succ_r.
  set (m := n + k). change (acc (S m)) with (acc m + if vt_xfer (st m) (i m) then 1 else 0).
  assert (TG : vt_tg (st m) = tg_at p (Z.of_nat (acc m))) by exact (tear_tg aw depth p len st i ok H0 HS Hhead m).
  assert (DE : tg_de true (vt_tg (st m)) = ((1 <=? Z.of_nat (acc m)) && spec_de p (Z.of_nat (acc m) - 1))%Z).
  { rewrite TG. unfold tg_de, spec_de. cbn [tg_at t_hact t_vact]. destruct (1 <=? Z.of_nat (acc m))%Z; reflexivity. }
  rewrite xfer_is. destruct (m_take m) eqn:T.
  - assert (D1 : tg_de true (vt_tg (st m)) = true) by (unfold m_take in T; apply andb_prop in T as [T _]; exact T).
    rewrite orb_true_r. rewrite DE in D1. apply andb_prop in D1 as [D1 D2]. apply Z.leb_le in D1.
    replace (acc m + 1 - 1) with (S (acc m - 1)) by lia. unfold pixels_before. cbn [occurrences]. rewrite Nat.add_0_l.
    replace (Z.of_nat (acc m - 1)) with (Z.of_nat (acc m) - 1)%Z by lia. rewrite D2. reflexivity.
  - rewrite orb_false_r. destruct (tg_de true (vt_tg (st m))) eqn:D1; cbn [negb]; [rewrite !Nat.add_0_r; reflexivity|].
    destruct (acc m) as [|a] eqn:AM; [reflexivity|]. replace (S a + 1 - 1) with (S a) by lia. replace (S a - 1) with a by lia.
    unfold pixels_before. cbn [occurrences]. rewrite Nat.add_0_l. replace (Z.of_nat a) with (Z.of_nat (S a) - 1)%Z by lia.
    replace (1 <=? Z.of_nat (S a))%Z with true in DE by (symmetry; apply Z.leb_le; lia). cbn [andb] in DE. rewrite <- DE. reflexivity.
Qed.
Lemma take_frame : forall n, occurrences m_take n HV <= A.
Proof.
  intros n. pose proof (take_pixels n HV) as T. pose proof (pixels_period p ok (acc n - 1)) as P. fold HV in P. rewrite <- HA in P. fold A in P.
  assert (AC : acc (n + HV) <= acc n + HV) by (unfold acc; rewrite occ_app; pose proof (occ_le (fun m => vt_xfer (st m) (i m)) (0 + n) HV); lia).
  pose proof (pixels_mono p (acc (n + HV) - 1) (acc n - 1 + HV) ltac:(lia)). lia.
Qed.

Variables (lat s K : nat).
Hypothesis Href : forall n, occurrences m_refuse n HV <= s.
Hypothesis Hlat : forall m n, m + lat <= n -> occurrences m_take 0 n < occurrences m_issue 0 (S m) -> ti_ret (i n) = true.
Hypothesis Hl1 : 1 <= lat.
Hypothesis HD : lat + s + 2 <= depth.
Lemma core_there : forall c, c <= A -> A + s + 2 + c <= HV -> 0 < c -> depth <= K * c ->
  forall n, K * HV <= n -> vi_dv (vt_vi (st n) (i n)) = true.
Proof.
  intros c C1 C2 C3 C4 n N.
  destruct (always_there m_issue m_take m_idle m_refuse m_q depth A HV s ltac:(unfold A; lia) (f_equal (@length _) (proj2 (proj2 H0))) q_step q_max issue_or take_frame Href idle_bound
    ltac:(lia) (fun n => ti_ret (i n)) lat Hlat Hl1 HD c K C1 C2 C4 n N) as [X Y].
  cbn [vt_vi vi_dv]. rewrite X. unfold m_q in Y. destruct (vt_reads (st n)); [cbn in Y; lia|reflexivity].
Qed.
End Core.
