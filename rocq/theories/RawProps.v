(** C93: raw mode sends the words in memory, in order. *)
From Coq Require Import ZArith List Bool Lia Arith.
From Verif Require Import Hdl Trace CdcProofs TimingModel VideoOutModel VideoOutProofs YccPathModel RawModel.
Import ListNotations.
Open Scope Z_scope.

Section Raw.
Variables (aw : Z) (depth : nat) (pr : vparam) (i : nat -> vt_in).
Let len := vp_length pr.
Hypothesis Haw : 0 <= aw.
Hypothesis Hlen : 0 < len <= 2 ^ aw.
Hypothesis Hpush : forall n q, ti_push (i n) = Some q -> q = pr.
Let st := rw_run aw depth [pr] i.
Hypothesis Hq : forall n, vt_q (st n) <> [].
Hypothesis Hready : forall n, ti_ready (i n) = true.
Let dv n := rw_dv (st n) (i n).
Let taken n := occurrences dv 0 n.

Lemma rw_q_const : forall n q, In q (vt_q (st n)) -> q = pr.
Proof.
  induction n as [|n IH]; intros q H.
  - cbn in H. destruct H as [H | []]. symmetry. exact H.
  - change (st (S n)) with (rw_step aw depth (st n) (i n)) in H. cbn [rw_step vt_q] in H. apply in_app_or in H as [H | H].
    + apply IH. destruct (vt_valid (st n) && _); [|exact H]. destruct (vt_q (st n)); [destruct H|right; exact H].
    + destruct (ti_push (i n)) as [r|] eqn:E; [|destruct H]. destruct (length (vt_q (st n)) <? 4)%nat; [|destruct H].
      destruct H as [<- | []]. apply (Hpush n). exact E.
Qed.
Lemma rw_head_const : forall n, vt_head (st n) (i n) = pr /\ vt_valid (st n) = true.
Proof.
  intros n. unfold vt_head, vt_valid. pose proof (Hq n) as Q. pose proof (rw_q_const n) as C.
  destruct (vt_q (st n)) as [|a r]; [congruence|]. split; [apply C; left; reflexivity|reflexivity].
Qed.

Lemma rw_reads : forall n, exists c,
  dr_rel len (vt_dr (st n)) (Z.of_nat (taken n + c)) /\ vt_reads (st n) = map (wordaddr aw pr) (seq (taken n) c).
Proof.
  induction n as [|n (c & R & E)].
  - exists 0%nat. split; [|reflexivity]. unfold st, rw_run, taken. cbn [at_ vt_start vt_dr].
    unfold dr_rel. cbn [dr_init dr_state]. change (0 mod len = 0). apply Z.mod_0_l. lia.
  - change (st (S n)) with (rw_step aw depth (st n) (i n)). destruct (rw_head_const n) as [Hh Hv].
    set (d := vt_di depth (st n) (i n)).
    pose proof (dr_rel_step aw (vp_base pr) len Haw Hlen (vt_dr (st n)) (Z.of_nat (taken n + c)) d ltac:(lia)) as RS.
    specialize (RS Hv). unfold d in RS at 1 2. cbn [vt_di dri_base dri_length] in RS. rewrite Hh in RS.
    specialize (RS eq_refl eq_refl R). cbn [rw_step vt_dr vt_reads]. fold d.
    set (v := vt_vi (st n) (i n)).
    assert (TK : vi_dv v && vo_dready true (vt_tg (st n)) v = dv n).
    { unfold dv, rw_dv. fold v. unfold vo_dready, vo_valid. assert (VV : vi_valid v = true) by exact Hv. rewrite VV. cbn [negb andb].
      rewrite orb_true_r, andb_true_r. replace (vi_ready v) with true by (symmetry; apply Hready). destruct (vi_dv v); [|reflexivity].
      rewrite orb_true_r. reflexivity. }
    rewrite TK. unfold taken. cbn [occurrences]. rewrite Nat.add_0_l. fold (taken n).
    destruct (dv n) eqn:D.
    + assert (NE : vt_reads (st n) <> []).
      { unfold dv, rw_dv, vt_vi in D. cbn [vi_dv] in D. apply andb_prop in D as [_ D]. destruct (vt_reads (st n)); [discriminate|congruence]. }
      destruct c as [|c]; [rewrite E in NE; exfalso; apply NE; reflexivity|].
      rewrite E. cbn [seq map tl]. rewrite Nat.add_1_r.
      destruct (dr_taken aw (vt_dr (st n)) d) as [a|].
      * destruct RS as [EA RS]. exists (S c). split.
        -- replace (Z.of_nat (S (taken n) + S c)) with (Z.of_nat (taken n + S c) + 1) by lia. exact RS.
        -- rewrite seq_S, map_app. cbn [map]. rewrite EA. f_equal. f_equal. unfold wordaddr. do 3 f_equal. lia.
      * exists c. split.
        -- replace (S (taken n) + c)%nat with (taken n + S c)%nat by lia. exact RS.
        -- rewrite app_nil_r. reflexivity.
    + rewrite Nat.add_0_r. destruct (dr_taken aw (vt_dr (st n)) d) as [a|].
      * destruct RS as [EA RS]. exists (S c). split.
        -- replace (Z.of_nat (taken n + S c)) with (Z.of_nat (taken n + c) + 1) by lia. exact RS.
        -- rewrite E, seq_S, map_app. cbn [map]. rewrite EA. reflexivity.
      * exists c. split; [exact RS|]. rewrite app_nil_r. exact E.
Qed.

(** The reader issues no command in the clock between two passes. *)
Lemma rw_issued : forall n, exists tot : nat, dr_rel len (vt_dr (st n)) (Z.of_nat tot) /\ (taken n + length (vt_reads (st n)) = tot)%nat /\
  (match dr_state (vt_dr (st n)) with DR_READ => 1 | _ => 0 end + Z.of_nat tot + Z.of_nat tot / len <= Z.of_nat n).
Proof.
  induction n as [|n (tot & R & T & B)].
  - exists 0%nat. split; [change (0 mod len = 0); apply Z.mod_0_l; lia|]. split; [reflexivity|].
    change (0 + 0 + 0 / len <= 0). rewrite Z.div_0_l by lia. lia.
  - change (st (S n)) with (rw_step aw depth (st n) (i n)). destruct (rw_head_const n) as [Hh Hv].
    set (d := vt_di depth (st n) (i n)).
    pose proof (dr_rel_step aw (vp_base pr) len Haw Hlen (vt_dr (st n)) (Z.of_nat tot) d ltac:(lia) Hv) as RS.
    unfold d in RS at 1 2. cbn [vt_di dri_base dri_length] in RS. rewrite Hh in RS.
    specialize (RS eq_refl eq_refl R). cbn [rw_step vt_dr vt_reads]. fold d.
    set (v := vt_vi (st n) (i n)).
    assert (TK : vi_dv v && vo_dready true (vt_tg (st n)) v = dv n).
    { unfold dv, rw_dv. fold v. unfold vo_dready, vo_valid. assert (VV : vi_valid v = true) by exact Hv. rewrite VV. cbn [negb andb].
      rewrite orb_true_r, andb_true_r. replace (vi_ready v) with true by (symmetry; apply Hready). destruct (vi_dv v); [|reflexivity].
      rewrite orb_true_r. reflexivity. }
    rewrite TK. unfold taken. cbn [occurrences]. rewrite Nat.add_0_l. fold (taken n).
    assert (LR : (length (if dv n then tl (vt_reads (st n)) else vt_reads (st n)) + (if dv n then 1 else 0) = length (vt_reads (st n)))%nat).
    { destruct (dv n) eqn:D; [|lia]. unfold dv, rw_dv, vt_vi in D. cbn [vi_dv] in D. apply andb_prop in D as [_ D]. destruct (vt_reads (st n)); [discriminate|cbn; lia]. }
    destruct (dr_taken aw (vt_dr (st n)) d) as [a|] eqn:TA.
    + destruct RS as [_ RS]. exists (S tot). rewrite app_length. cbn [length]. split; [replace (Z.of_nat (S tot)) with (Z.of_nat tot + 1) by lia; exact RS|].
      split; [lia|].
      assert (ST : dr_state (vt_dr (st n)) = DR_READ) by (unfold dr_taken, dr_addr_valid in TA; destruct (dr_state (vt_dr (st n))); [discriminate|reflexivity|discriminate]).
      rewrite ST in B. unfold dr_rel in R. rewrite ST in R.
      replace (Z.of_nat (S tot)) with (Z.of_nat tot + 1) by lia.
      unfold dr_step, dr_done, dr_addr_valid. cbn [dr_state]. rewrite ST. cbn [andb].
      assert (RD : dri_ready d = true) by (unfold dr_taken, dr_addr_valid in TA; rewrite ST in TA; cbn [andb] in TA; destruct (dri_ready d); [reflexivity|discriminate]).
      rewrite RD, R. cbn [andb]. replace (dri_length d) with len by (unfold d; cbn [vt_di dri_length]; rewrite Hh; reflexivity).
      pose proof (Z.div_mod (Z.of_nat tot) len ltac:(lia)) as DM. pose proof (Z.mod_pos_bound (Z.of_nat tot) len ltac:(lia)) as MB.
      destruct (Z.eqb_spec (Z.of_nat tot mod len) (len - 1)) as [E|E].
      * assert (Q : (Z.of_nat tot + 1) / len = Z.of_nat tot / len + 1) by (symmetry; apply (Z.div_unique _ _ _ 0); lia). lia.
      * assert (Q : (Z.of_nat tot + 1) / len = Z.of_nat tot / len) by (symmetry; apply (Z.div_unique _ _ _ (Z.of_nat tot mod len + 1)); lia). lia.
    + exists tot. rewrite app_nil_r. split; [exact RS|]. split; [lia|].
      unfold dr_taken, dr_addr_valid in TA. unfold dr_step, dr_done, dr_addr_valid. cbn [dr_state].
      destruct (dr_state (vt_dr (st n))); [destruct (dri_valid d); lia| |destruct (dr_sof (vt_dr (st n))); lia].
      cbn [andb] in TA. destruct (dri_ready d); [discriminate|]. cbn [andb]. lia.
Qed.
Lemma rw_gaps : forall n, Z.of_nat (taken n) * (len + 1) <= Z.of_nat n * len.
Proof.
  intros n. destruct (rw_issued n) as (tot & R & T & B). set (x := Z.of_nat tot) in *.
  assert (X : Z.of_nat (taken n) <= x) by lia. assert (B' : x + x / len <= Z.of_nat n) by (destruct (dr_state (vt_dr (st n))); lia).
  pose proof (Z.div_mod x len ltac:(lia)) as DM. pose proof (Z.mod_pos_bound x len ltac:(lia)) as MB.
  assert (Q : x * (len + 1) <= Z.of_nat n * len).
  { destruct (Z.eq_dec (x mod len) 0) as [E|E].
    - replace (x * (len + 1)) with (len * (x + x / len)) by (rewrite E in DM; lia). rewrite (Z.mul_comm _ len). apply Z.mul_le_mono_nonneg_l; lia.
    - (* a pass begun but not finished *)
      unfold dr_rel in R. destruct (dr_state (vt_dr (st n))); [lia| |contradiction].
      apply Z.le_trans with (len * (1 + x + x / len)); [lia|]. rewrite (Z.mul_comm _ len). apply Z.mul_le_mono_nonneg_l; lia. }
  apply Z.le_trans with (x * (len + 1)); [apply Z.mul_le_mono_nonneg_r; lia|exact Q].
Qed.
End Raw.

(** Bits [10 c] to [10 c + 9] of a memory word. *)
Definition raw_word (x : Z) (c : Z) : Z := x / 2 ^ (10 * c) mod 2 ^ 10.

(** In every clock in which the reader has a word, in the active area or not, the
    three serialisers get the three ten-bit fields of the next memory word: the
    words of the buffer in order, each once, then from the start of the buffer
    again. *)
Theorem C93_raw_words :
  forall aw depth pr (i : nat -> vt_in), 0 <= aw -> 0 < vp_length pr <= 2 ^ aw ->
  (forall n q, ti_push (i n) = Some q -> q = pr) ->
  let st := rw_run aw depth [pr] i in (forall n, vt_q (st n) <> []) -> (forall n, ti_ready (i n) = true) ->
  forall M junk n, let dv m := rw_dv (st m) (i m) in dv n = true ->
  let x := M ((vp_base pr + Z.of_nat (occurrences dv 0 n) mod vp_length pr) mod 2 ^ aw) in
  rw_words M junk (st n) (i n) = (raw_word x 0, raw_word x 1, raw_word x 2).
Proof.
  intros aw depth pr i Haw Hlen Hpush st Hq Hready M junk n dv D x.
  destruct (rw_reads aw depth pr i Haw Hlen Hpush Hq Hready n) as (c & _ & E).
  unfold dv in D. unfold rw_words. rewrite D. unfold rw_dv, vt_vi in D. cbn [vi_dv] in D. apply andb_prop in D as [_ D].
  cbn [vt_vi vi_data]. fold st in E. destruct c as [|c]; [rewrite E in D; discriminate|]. rewrite E. cbn [seq map hd]. reflexivity.
Qed.
Print Assumptions C93_raw_words.

Lemma all_taken (dv : nat -> bool) T K : (forall m, (T <= m < T + K)%nat -> dv m = true) -> occurrences dv T K = K.
Proof. intros H. induction K as [|k IH]; [reflexivity|]. cbn [occurrences]. rewrite IH, H by (intros; try apply H; lia). lia. Qed.

(** In a stretch without underflow the words follow each other in successive clocks,
    whatever the programmed scan is. *)
Theorem C93_raw_stretch :
  forall aw depth pr (i : nat -> vt_in), 0 <= aw -> 0 < vp_length pr <= 2 ^ aw ->
  (forall n q, ti_push (i n) = Some q -> q = pr) ->
  let st := rw_run aw depth [pr] i in (forall n, vt_q (st n) <> []) -> (forall n, ti_ready (i n) = true) ->
  forall T K, (forall m, (T <= m < T + K)%nat -> rw_dv (st m) (i m) = true) ->
  exists a, forall M junk k, (k < K)%nat ->
  let x := M ((vp_base pr + Z.of_nat (a + k) mod vp_length pr) mod 2 ^ aw) in
  rw_words M junk (st (T + k)%nat) (i (T + k)%nat) = (raw_word x 0, raw_word x 1, raw_word x 2).
Proof.
  intros aw depth pr i Haw Hlen Hpush st Hq Hready T K HD. set (dv := fun m => rw_dv (st m) (i m)).
  exists (occurrences dv 0 T). intros M junk k Hk x.
  pose proof (C93_raw_words aw depth pr i Haw Hlen Hpush Hq Hready M junk (T + k)%nat (HD (T + k)%nat ltac:(lia))) as H. cbv zeta in H.
  fold st in H. rewrite H. fold dv. rewrite occ_app. rewrite Nat.add_0_l. unfold x.
  rewrite (all_taken dv T k) by (intros m Hm; apply HD; lia). reflexivity.
Qed.
Print Assumptions C93_raw_stretch.

(** A parameter FIFO kept filled, a memory that answers every second clock, a
    buffer of three words and a scan of ten clocks. *)
Definition ex_rw_pr : vparam :=
  {| vp_t := {| p_hres := 2; p_hs_start := 3; p_hs_end := 4; p_hscan := 4; p_vres := 1; p_vs_start := 1; p_vs_end := 1; p_vscan := 1 |};
     vp_base := 100; vp_length := 3 |}.
Definition ex_rw (slow : bool) (m : nat) : vt_in :=
  {| ti_push := Some ex_rw_pr; ti_mem := true; ti_ret := negb slow || Nat.odd m; ti_ready := true; ti_junk := ex_rw_pr |}.
Example ex_rw_hyps : forall slow, (forall n q, ti_push (ex_rw slow n) = Some q -> q = ex_rw_pr) /\
  (forall n, vt_q (rw_run 24 8 [ex_rw_pr] (ex_rw slow) n) <> []).
Proof.
  intros slow. split; [intros n q H; cbn [ex_rw ti_push] in H; injection H; auto|].
  induction n as [|n IH]; [discriminate|].
  change (rw_run 24 8 [ex_rw_pr] (ex_rw slow) (S n)) with (rw_step 24 8 (rw_run 24 8 [ex_rw_pr] (ex_rw slow) n) (ex_rw slow n)).
  set (s := rw_run 24 8 [ex_rw_pr] (ex_rw slow) n) in *. unfold rw_step. cbn [vt_q ex_rw ti_push].
  destruct (vt_q s) as [|a [|b r]]; [congruence| |].
  - cbn [length Nat.ltb Nat.leb]. intro H. apply app_eq_nil in H as [_ H]. discriminate.
  - destruct (vt_valid s && _); cbn [tl]; discriminate.
Qed.
Example ex_rw_case : map (fun n => let s := rw_run 24 8 [ex_rw_pr] (ex_rw true) n in (rw_dv s (ex_rw true n), fst (fst (rw_words (fun a => a) 7 s (ex_rw true n))))) (seq 0 12) =
  [(false, 7); (false, 7); (false, 7); (true, 100); (false, 7); (true, 101); (false, 7); (true, 102); (false, 7); (true, 100); (false, 7); (true, 101)].
Proof. vm_compute. reflexivity. Qed.
Example ex_rw_stretch : forall m, (2 <= m < 2 + 3)%nat -> rw_dv (rw_run 24 8 [ex_rw_pr] (ex_rw false) m) (ex_rw false m) = true.
Proof. intros m M. assert (C : m = 2%nat \/ m = 3%nat \/ m = 4%nat) by lia. destruct C as [-> |[-> | ->]]; vm_compute; reflexivity. Qed.
