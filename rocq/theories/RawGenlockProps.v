(** C146: raw mode locked to an incoming stream. *)
From Coq Require Import ZArith List Bool Lia Arith.
From Verif Require Import Hdl Trace CdcProofs VideoOutModel VideoOutProps FifoModel FifoProofs FifoProps GenlockModel GenlockProofs GenlockProps RawGenlockModel.
Import ListNotations.
Open Scope nat_scope.

(** The words sent by the core, by address, and the clocks in which the memory takes a command. *)
Definition rg_out aw delay depth (i : nat -> gl_in) (t : nat) : option Z := rg_sent (rg_run aw delay depth i t) (i t).
Definition rg_accepts aw delay depth (i : nat -> gl_in) (t : nat) : bool := dri_ready (gl_di depth (rg_run aw delay depth i t) (i t)).
(** The stream is valid, the memory has data for an outstanding command, the consumer takes them. *)
Definition rg_drains (i : nat -> gl_in) (t : nat) : bool := gli_sv (i t) && gli_ret (i t) && gli_ready (i t).

Section Core.
Variables (aw delay : Z) (depth : nat) (i : nat -> gl_in).
Let st := rg_run aw delay depth i.
Let fin (t : nat) : dr_in := gl_di depth (rg_run aw delay depth i t) (i t).
Let tk (t : nat) : option Z := dr_taken aw (dr_run true aw delay fin t) (fin t).
Let sh := rg_out aw delay depth i.

Lemma rg_dr_run : forall t, gl_dr (st t) = dr_run true aw delay fin t.
Proof.
  induction t as [|t IH]; [reflexivity|]. change (st (S t)) with (rg_step aw delay depth (st t) (i t)).
  unfold rg_step; cbn [gl_dr]. rewrite IH. reflexivity.
Qed.
Lemma rg_reads_S : forall t, gli_valid (i t) = true ->
  gl_reads (st (S t)) = (match sh t with Some _ => tl (gl_reads (st t)) | None => gl_reads (st t) end) ++ (match tk t with Some a => [a] | None => [] end).
Proof.
  intros t V. change (st (S t)) with (rg_step aw delay depth (st t) (i t)). unfold rg_step; cbn [gl_reads]. unfold tk. rewrite <- rg_dr_run.
  fold (fin t). f_equal. unfold sh, rg_out, rg_sent, rg_dready. fold st. rewrite V. cbn [negb].
  destruct (gl_dv (st t) (i t) && (gl_svalid (st t) (i t) && gli_ready (i t))); reflexivity.
Qed.
(** In a clock that drains, the oldest word on the way is sent. *)
Lemma rg_drain : forall t, rg_drains i t = true -> sh t = match gl_reads (st t) with [] => None | a :: _ => Some a end.
Proof.
  intros t D. unfold rg_drains in D. apply andb_prop in D as [D D3]. apply andb_prop in D as [D1 D2].
  unfold sh, rg_out, rg_sent, gl_svalid, gl_dv. fold st. rewrite D1, D2, D3. cbn [andb]. destruct (gl_reads (st t)); [reflexivity|]. rewrite orb_true_r. reflexivity.
Qed.
Lemma rg_sent_hd : forall t a, sh t = Some a -> exists l, gl_reads (st t) = a :: l.
Proof.
  intros t a H. unfold sh, rg_out, rg_sent, gl_dv in H. fold st in H. destruct (gl_reads (st t)) as [|b l]; [rewrite andb_false_r in H; discriminate|].
  exists l. destruct (_ && _); [|discriminate]. injection H as ->. reflexivity.
Qed.
Lemma rg_conserve : forall r m, (forall t, r <= t < r + m -> gli_valid (i t) = true) ->
  gl_reads (st r) ++ collect tk r m = collect sh r m ++ gl_reads (st (r + m)).
Proof.
  intros r. induction m as [|m IH]; intros H; [rewrite Nat.add_0_r; cbn [collect]; rewrite app_nil_r; reflexivity|].
  specialize (IH (fun t T => H t ltac:(lia))). cbn [collect]. rewrite app_assoc, IH, <- !app_assoc. f_equal.
  rewrite Nat.add_succ_r, rg_reads_S by (apply H; lia). rewrite app_assoc. f_equal.
  destruct (sh (r + m)) as [a|] eqn:E; [|reflexivity]. destruct (rg_sent_hd _ _ E) as (l & L). rewrite L. reflexivity.
Qed.
Lemma rg_bound : forall t, length (gl_reads (st t)) <= depth.
Proof.
  induction t as [|t IH]; [cbn; lia|]. change (st (S t)) with (rg_step aw delay depth (st t) (i t)). unfold rg_step; cbn [gl_reads]. rewrite app_length.
  assert (P : length (if gl_dv (st t) (i t) && rg_dready (st t) (i t) then tl (gl_reads (st t)) else gl_reads (st t)) <= length (gl_reads (st t))).
  { destruct (_ && _); [|lia]. destruct (gl_reads (st t)); cbn [tl length]; lia. }
  unfold dr_taken. cbn [gl_di dri_ready]. destruct (gli_mem (i t)); cbn [andb]; [|rewrite andb_false_r; cbn [length]; lia].
  destruct (Nat.ltb_spec (length (gl_reads (st t))) depth); [|rewrite andb_false_r; cbn [length]; lia].
  destruct (dr_addr_valid (gl_dr (st t)) && true); cbn [length]; lia.
Qed.
(** Without further commands the words on the way run out. *)
Lemma rg_runs_out : forall s n, (forall t, s <= t < s + n -> gli_valid (i t) = true) -> (forall t, s <= t < s + n -> tk t = None) ->
  length (gl_reads (st (s + n))) <= length (gl_reads (st s)) - occurrences (rg_drains i) s n.
Proof.
  intros s. induction n as [|n IH]; intros V T; [rewrite Nat.add_0_r; cbn [occurrences]; lia|].
  specialize (IH ltac:(intros; apply V; lia) ltac:(intros; apply T; lia)). rewrite Nat.add_succ_r, rg_reads_S by (apply V; lia).
  rewrite T by lia. rewrite app_nil_r. cbn [occurrences]. destruct (rg_drains i (s + n)) eqn:D.
  - rewrite (rg_drain _ D). destruct (gl_reads (st (s + n))); cbn [tl length] in *; lia.
  - destruct (sh (s + n)); [|lia]. destruct (gl_reads (st (s + n))); cbn [tl length] in *; lia.
Qed.
End Core.

(** One frame: if the memory has taken a command for every word by [s] and after that there are [depth] clocks that drain, the frame sends what was
    left and the whole pass, and leaves nothing. *)
Lemma rg_frame : forall aw delay depth i base len r e, (0 <= aw)%Z -> (0 <= delay < 2 ^ aw)%Z -> (delay < len <= 2 ^ aw)%Z ->
  genlock_frame (fun t => gli_vs (i t)) r e ->
  (forall t, r <= t < e -> gli_valid (i t) = true /\ gli_base (i t) = base /\ gli_length (i t) = len) ->
  waiting (gl_dr (rg_run aw delay depth i r)) ->
  (exists s, r + 4 <= s <= e /\ Z.to_nat (len - delay) <= occurrences (rg_accepts aw delay depth i) (r + 4) (s - r - 4) /\
     depth <= occurrences (rg_drains i) s (e - s)) ->
  collect (rg_out aw delay depth i) r (e - r) = gl_reads (rg_run aw delay depth i r) ++ pass aw base delay len /\
  gl_reads (rg_run aw delay depth i e) = [] /\ waiting (gl_dr (rg_run aw delay depth i e)).
Proof.
  intros aw delay depth i base len r e Haw Hd Hlen Hf Hc W (s & S1 & S2 & S3).
  set (N := Z.to_nat (len - delay)) in *. pose proof (proj1 Hf) as RE.
  set (fin := fun t => gl_di depth (rg_run aw delay depth i t) (i t)).
  assert (Hc' : forall t, r <= t < e -> dri_valid (fin t) = true /\ dri_base (fin t) = base /\ dri_length (fin t) = len) by (intros t T; apply (Hc t T)).
  rewrite !rg_dr_run in *. fold fin in W |- *.
  assert (V : forall t, r <= t < e -> gli_valid (i t) = true) by (intros t T; apply (Hc t T)).
  set (tk := fun t => dr_taken aw (dr_run true aw delay fin t) (fin t)) in *.
  assert (C : gl_reads (rg_run aw delay depth i r) ++ collect tk r (e - r) = collect (rg_out aw delay depth i) r (e - r) ++ gl_reads (rg_run aw delay depth i (r + (e - r)))) by (apply rg_conserve; intros; apply V; lia).
  replace (r + (e - r)) with e in C by lia.
  pose proof (fun m L => C80_one_pass_per_frame aw delay fin base len r e Haw Hd Hlen Hf Hc' W m L) as P.
  change (addresses true aw delay fin) with (collect tk) in P.
  destruct (P (s - r) ltac:(lia)) as [A1 _]. destruct (P (e - r) ltac:(lia)) as [A2 A3].
  change (occurrences (fun t => dri_ready (fin t))) with (occurrences (rg_accepts aw delay depth i)) in *.
  assert (O2 : N <= occurrences (rg_accepts aw delay depth i) (r + 4) (e - r - 4)).
  { replace (e - r - 4) with ((s - r - 4) + (e - s)) by lia. rewrite occ_app. lia. }
  rewrite firstn_all2 in A1, A2 by (rewrite pass_length; lia).
  assert (TK : forall t, s <= t < s + (e - s) -> tk t = None).
  { pose proof (collect_app _ tk r (s - r) (e - s)) as X. replace (s - r + (e - s)) with (e - r) in X by lia. replace (r + (s - r)) with s in X by lia.
    rewrite A1, A2 in X. assert (Y : collect tk s (e - s) = []) by (apply (f_equal (@length _)) in X; rewrite app_length in X; destruct (collect tk s (e - s)); [reflexivity|cbn [length] in X; lia]).
    revert Y. generalize (e - s) as n. induction n as [|n IH]; intros Y t T; [lia|]. cbn [collect] in Y. apply app_eq_nil in Y as [Y1 Y2].
    destruct (Nat.eq_dec t (s + n)) as [->|]; [destruct (tk (s + n)); [discriminate|reflexivity]|apply IH; [exact Y1|lia]]. }
  pose proof (rg_runs_out aw delay depth i s (e - s) (fun t T => V t ltac:(lia)) TK) as R. replace (s + (e - s)) with e in R by lia.
  pose proof (rg_bound aw delay depth i s) as B.
  assert (Z0 : gl_reads (rg_run aw delay depth i e) = []) by (destruct (gl_reads (rg_run aw delay depth i e)); [reflexivity|cbn [length] in R; lia]).
  rewrite Z0, app_nil_r, A2 in C. split; [symmetry; exact C|]. split; [exact Z0|]. apply A3; [lia|lia|exact O2].
Qed.

(** Whatever was left over at the first vsync edge: it is sent in the first frame, and every later frame sends the words of the
    buffer from [delay] on, all of them, in order and nothing else. *)
Theorem C146_raw_genlock : forall aw delay depth i base len (rr : nat -> nat), (0 <= aw)%Z -> (0 <= delay < 2 ^ aw)%Z -> (delay < len <= 2 ^ aw)%Z ->
  (forall k, genlock_frame (fun t => gli_vs (i t)) (rr k) (rr (S k))) ->
  (forall t, rr 0 <= t -> gli_valid (i t) = true /\ gli_base (i t) = base /\ gli_length (i t) = len) ->
  (forall k, exists s, rr k + 4 <= s <= rr (S k) /\
     Z.to_nat (len - delay) <= occurrences (rg_accepts aw delay depth i) (rr k + 4) (s - rr k - 4) /\
     depth <= occurrences (rg_drains i) s (rr (S k) - s)) ->
  waiting (gl_dr (rg_run aw delay depth i (rr 0))) ->
  collect (rg_out aw delay depth i) (rr 0) (rr 1 - rr 0) = gl_reads (rg_run aw delay depth i (rr 0)) ++ pass aw base delay len /\
  forall k, 1 <= k -> collect (rg_out aw delay depth i) (rr k) (rr (S k) - rr k) = pass aw base delay len.
Proof.
  intros aw delay depth i base len rr Haw Hd Hlen Hf Hc HS W0.
  assert (M : forall k, rr 0 <= rr k) by (induction k as [|k IH]; [lia|]; destruct (Hf k); lia).
  assert (G : forall k, waiting (gl_dr (rg_run aw delay depth i (rr k))) ->
    collect (rg_out aw delay depth i) (rr k) (rr (S k) - rr k) = gl_reads (rg_run aw delay depth i (rr k)) ++ pass aw base delay len /\
    gl_reads (rg_run aw delay depth i (rr (S k))) = [] /\ waiting (gl_dr (rg_run aw delay depth i (rr (S k))))).
  { intros k W. apply (rg_frame aw delay depth i base len (rr k) (rr (S k)) Haw Hd Hlen (Hf k)); [|exact W|apply HS].
    intros t T. apply Hc. pose proof (M k). lia. }
  assert (WW : forall k, waiting (gl_dr (rg_run aw delay depth i (rr k)))) by (induction k as [|k IH]; [exact W0|apply (G k IH)]).
  split; [apply (G 0 W0)|]. intros k K. destruct k as [|k]; [lia|]. destruct (G k (WW k)) as (_ & Z & _). destruct (G (S k) (WW (S k))) as (A & _).
  rewrite Z in A. exact A.
Qed.
Print Assumptions C146_raw_genlock.

(** From reset: parameters are on offer from clock [u] on.  At a vsync edge [r] the reader waits if there was no edge from [q] on and the memory has
    taken a command for every word since. *)
Theorem C146_waits : forall aw delay depth i base len u q r, (0 <= aw)%Z -> (0 <= delay < 2 ^ aw)%Z -> (delay < len <= 2 ^ aw)%Z ->
  (forall t, gli_valid (i t) = (u <=? t)) -> (forall t, u <= t -> gli_base (i t) = base /\ gli_length (i t) = len) ->
  u <= q -> q + 3 <= r -> (forall t, q <= t < r -> rises (fun t => gli_vs (i t)) t = false) ->
  Z.to_nat (len - delay) <= occurrences (rg_accepts aw delay depth i) (q + 3) (r - q - 3) ->
  waiting (gl_dr (rg_run aw delay depth i r)).
Proof.
  intros aw delay depth i base len u q r Haw Hd Hlen HV HP UQ QR NR HN. rewrite rg_dr_run.
  set (fin := fun t => gl_di depth (rg_run aw delay depth i t) (i t)). set (dr := dr_run true aw delay fin).
  assert (S1 : forall t, dr (S t) = dr_step true aw delay (dr t) (fin t)) by reflexivity.
  assert (D0 : trunc aw delay = delay) by (apply trunc_id; lia).
  assert (SOF : forall t, dr_sof (dr (S (S t))) = rises (fun t => gli_vs (i t)) t).
  { intros t. change (dr_sof (dr (S (S t)))) with (dr_v (dr (S t)) && negb (dr_v_r (dr (S t)))).
    change (dr_v (dr (S t))) with (gli_vs (i t)). change (dr_v_r (dr (S t))) with (dr_v (dr t)). unfold rises. destruct t; reflexivity. }
  assert (INV : forall t, dr_state (dr t) = DR_IDLE \/ u <= t /\ (dr_state (dr t) = DR_WAIT_SOF \/ dr_state (dr t) = DR_READ /\ (delay <= dr_offset (dr t) < len)%Z)).
  { induction t as [|t IH]; [left; reflexivity|]. rewrite S1. unfold dr_step, dr_done, dr_addr_valid; cbn [dr_state dr_offset].
    destruct IH as [IH | [U [IH | [IH O]]]]; rewrite IH.
    - change (dri_valid (fin t)) with (gli_valid (i t)). rewrite HV. destruct (Nat.leb_spec u t); [right|left; reflexivity]. split; [lia|].
      right. split; [reflexivity|]. rewrite D0. lia.
    - destruct (dr_sof (dr t)); [left; reflexivity|right; split; [lia|left; reflexivity]].
    - right. split; [lia|]. destruct (HP t U) as [_ LN]. change (dri_length (fin t)) with (gli_length (i t)). rewrite LN.
      destruct (dri_ready (fin t)); cbn [andb]; [|right; auto]. destruct (Z.eqb_spec (dr_offset (dr t)) (len - 1)); [left; reflexivity|right].
      split; [reflexivity|]. rewrite trunc_id by lia. lia. }
  assert (Q : forall m, q + 3 + m <= r -> dr_state (dr (q + 3 + m)) = DR_WAIT_SOF \/
    dr_state (dr (q + 3 + m)) = DR_READ /\ (delay + Z.of_nat (occurrences (rg_accepts aw delay depth i) (q + 3)%nat m) <= dr_offset (dr (q + 3 + m)%nat) < len)%Z).
  { induction m as [|m IH]; intros L.
    - rewrite Nat.add_0_r. cbn [occurrences]. replace (q + 3) with (S (q + 2)) by lia. rewrite S1.
      unfold dr_step, dr_done, dr_addr_valid; cbn [dr_state dr_offset]. destruct (INV (q + 2)) as [IH | [U [IH | [IH O]]]]; rewrite IH.
      + change (dri_valid (fin (q + 2))) with (gli_valid (i (q + 2))). rewrite HV. rewrite (proj2 (Nat.leb_le u (q + 2))) by lia. right. split; [reflexivity|].
        rewrite D0. lia.
      + replace (q + 2) with (S (S q)) by lia. rewrite SOF, NR by lia. left. reflexivity.
      + destruct (HP (q + 2) U) as [_ LN]. change (dri_length (fin (q + 2))) with (gli_length (i (q + 2))). rewrite LN.
        destruct (dri_ready (fin (q + 2))); cbn [andb]; [|right; split; [reflexivity|lia]]. destruct (Z.eqb_spec (dr_offset (dr (q + 2))) (len - 1)); [left; reflexivity|right].
        split; [reflexivity|]. rewrite trunc_id by lia. lia.
    - rewrite Nat.add_succ_r, S1. cbn [occurrences]. unfold dr_step, dr_done, dr_addr_valid; cbn [dr_state dr_offset].
      change (rg_accepts aw delay depth i (q + 3 + m)) with (dri_ready (fin (q + 3 + m))).
      destruct (IH ltac:(lia)) as [I | [I O]]; rewrite I.
      + replace (q + 3 + m) with (S (S (q + 1 + m))) by lia. rewrite SOF, NR by lia. left. reflexivity.
      + destruct (HP (q + 3 + m) ltac:(lia)) as [_ LN]. change (dri_length (fin (q + 3 + m))) with (gli_length (i (q + 3 + m))). rewrite LN.
        destruct (dri_ready (fin (q + 3 + m))); cbn [andb]; [|right; split; [reflexivity|lia]].
        destruct (Z.eqb_spec (dr_offset (dr (q + 3 + m))) (len - 1)); [left; reflexivity|right].
        split; [reflexivity|]. rewrite trunc_id by lia. lia. }
  split.
  - destruct (Q (r - q - 3) ltac:(lia)) as [A | [_ A]]; replace (q + 3 + (r - q - 3)) with r in A by lia; [exact A|lia].
  - replace r with (S (S (r - 2))) by lia. fold dr. rewrite SOF. apply NR. lia.
Qed.
Print Assumptions C146_waits.

(** ** Memory, stream and consumer always ready *)
Lemma occ_all : forall p a n, (forall t, a <= t < a + n -> p t = true) -> occurrences p a n = n.
Proof. intros p a n. induction n as [|n IH]; intros H; [reflexivity|]. cbn [occurrences]. rewrite IH by (intros; apply H; lia). rewrite H by lia. lia. Qed.
Lemma collect_last : forall (A : Type) (f : nat -> option A) r m l, collect f r m = l -> forall l', collect f r (S m) = l' ->
  f (r + m) = hd_error (skipn (length l) l').
Proof.
  intros A f r m l <- l' <-. cbn [collect]. rewrite skipn_app, skipn_all, Nat.sub_diag. cbn [app skipn]. destruct (f (r + m)); reflexivity.
Qed.

Section Ideal.
Variables (aw delay : Z) (depth : nat) (i : nat -> gl_in) (base len : Z) (r e : nat).
Hypothesis Haw : (0 <= aw)%Z.
Hypothesis Hd : (0 <= delay < 2 ^ aw)%Z.
Hypothesis Hlen : (delay < len <= 2 ^ aw)%Z.
Hypothesis Hf : genlock_frame (fun t => gli_vs (i t)) r e.
Hypothesis Hc : forall t, r <= t < e -> gli_valid (i t) = true /\ gli_base (i t) = base /\ gli_length (i t) = len.
Hypothesis Hi : forall t, r <= t < e -> gli_mem (i t) = true /\ rg_drains i t = true.
Hypothesis D2 : 2 <= depth.
Hypothesis W : waiting (gl_dr (rg_run aw delay depth i r)).
Let st := rg_run aw delay depth i.
Let fin (t : nat) : dr_in := gl_di depth (st t) (i t).
Let tk (t : nat) : option Z := dr_taken aw (dr_run true aw delay fin t) (fin t).
Let N := Z.to_nat (len - delay).

Lemma id_pass : forall m, r + m <= e -> collect tk r m = firstn (occurrences (rg_accepts aw delay depth i) (r + 4) (m - 4)) (pass aw base delay len).
Proof.
  intros m L. rewrite rg_dr_run in W. fold fin in W.
  assert (Hc' : forall t, r <= t < e -> dri_valid (fin t) = true /\ dri_base (fin t) = base /\ dri_length (fin t) = len) by (intros t T; apply (Hc t T)).
  exact (proj1 (C80_one_pass_per_frame aw delay fin base len r e Haw Hd Hlen Hf Hc' W m L)).
Qed.
Lemma id_early : forall m, m < 4 -> r + m < e -> tk (r + m) = None.
Proof.
  intros m M L. pose proof (id_pass (S m) ltac:(lia)) as A. replace (S m - 4) with 0 in A by lia. cbn [occurrences firstn collect] in A.
  apply app_eq_nil in A as [_ A]. destruct (tk (r + m)); [discriminate|reflexivity].
Qed.
Lemma id_S : forall m, r + m < e -> gl_reads (st (S (r + m))) = tl (gl_reads (st (r + m))) ++ match tk (r + m) with Some a => [a] | None => [] end.
Proof.
  intros m L. etransitivity; [exact (rg_reads_S aw delay depth i (r + m) (proj1 (Hc (r + m) ltac:(lia))))|]. f_equal.
  rewrite (rg_drain aw delay depth i (r + m)) by (apply Hi; lia). fold st. destruct (gl_reads (st (r + m))); reflexivity.
Qed.
Lemma id_len : forall m, r + m <= e -> length (gl_reads (st (r + m))) <= if m <=? 4 then depth - m else Nat.max (depth - 4) 1.
Proof.
  induction m as [|m IH]; intros L; [rewrite Nat.add_0_r; cbn [Nat.leb]; rewrite Nat.sub_0_r; apply rg_bound|].
  specialize (IH ltac:(lia)). rewrite Nat.add_succ_r, id_S by lia. rewrite app_length.
  assert (TL : length (tl (gl_reads (st (r + m)))) = length (gl_reads (st (r + m))) - 1) by (destruct (gl_reads (st (r + m))); cbn [tl length]; lia).
  rewrite TL. destruct (Nat.leb_spec (S m) 4).
  - rewrite (id_early m) by lia. cbn [length]. destruct (Nat.leb_spec m 4); lia.
  - destruct (Nat.leb_spec m 4); destruct (tk (r + m)); cbn [length]; lia.
Qed.
Lemma id_accepts : forall t, r + 4 <= t < e -> rg_accepts aw delay depth i t = true.
Proof.
  intros t T. unfold rg_accepts. cbn [gl_di dri_ready]. rewrite (proj1 (Hi t ltac:(lia))). cbn [andb]. apply Nat.ltb_lt.
  pose proof (id_len (t - r) ltac:(lia)) as L. replace (r + (t - r)) with t in L by lia. fold st. destruct (Nat.leb_spec (t - r) 4); lia.
Qed.
Lemma id_tk : forall m, r + m < e -> tk (r + m) = if (4 <=? m) && (m <? 4 + N) then Some ((base + delay + Z.of_nat (m - 4)) mod 2 ^ aw)%Z else None.
Proof.
  intros m L. destruct (Nat.leb_spec 4 m) as [M|M]; [|apply id_early; lia]. cbn [andb].
  pose proof (id_pass m ltac:(lia)) as A. pose proof (id_pass (S m) ltac:(lia)) as B.
  rewrite occ_all in A by (intros; apply id_accepts; lia). rewrite occ_all in B by (intros; apply id_accepts; lia).
  replace (S m - 4) with (S (m - 4)) in B by lia. rewrite (collect_last _ tk r m _ A _ B). rewrite firstn_length, pass_length. fold N.
  destruct (Nat.ltb_spec m (4 + N)).
  - replace (Nat.min (m - 4) N) with (m - 4) by lia. unfold pass. fold N. rewrite firstn_map, skipn_map.
    replace N with ((m - 4) + S (N - (m - 4) - 1)) by lia. rewrite seq_app, firstn_app, seq_length. replace (S (m - 4) - (m - 4)) with 1 by lia.
    rewrite firstn_all2 by (rewrite seq_length; lia). rewrite skipn_app, seq_length, skipn_all2 by (rewrite seq_length; lia). rewrite Nat.sub_diag. reflexivity.
  - replace (Nat.min (m - 4) N) with N by lia. rewrite skipn_all2; [reflexivity|]. rewrite firstn_length, pass_length. fold N. lia.
Qed.
(** A frame that begins with nothing on the way: word [j] is sent [5 + j] clocks after the edge. *)
Lemma id_out : gl_reads (st r) = [] -> forall m, r + m < e ->
  rg_out aw delay depth i (r + m) = if (5 <=? m) && (m <? 5 + N) then Some ((base + delay + Z.of_nat (m - 5)) mod 2 ^ aw)%Z else None.
Proof.
  intros Z0 m L. rewrite (rg_drain aw delay depth i (r + m)) by (apply Hi; lia). fold st.
  assert (R : forall m, r + m < e -> gl_reads (st (r + m)) = match m with 0 => [] | S p => match tk (r + p) with Some a => [a] | None => [] end end).
  { induction m0 as [|p IH]; intros Q; [rewrite Nat.add_0_r; exact Z0|]. rewrite Nat.add_succ_r, id_S by lia. rewrite IH by lia.
    destruct p as [|p]; [reflexivity|]. destruct (tk (r + p)); reflexivity. }
  rewrite R by exact L. destruct m as [|p]; [reflexivity|]. rewrite id_tk by lia.
  change (5 <=? S p) with (4 <=? p). change (S p <? 5 + N) with (p <? 4 + N). replace (S p - 5) with (p - 4) by lia.
  destruct ((4 <=? p) && (p <? 4 + N)); reflexivity.
Qed.
End Ideal.

(** Memory, stream and consumer always ready, frames longer by [depth + 4] clocks than the pass: from the second frame on the words of the
    buffer are sent one in each clock, the first one five clocks after the edge of vsync, and no other words. *)
Theorem C146_exact_clock : forall aw delay depth i base len (rr : nat -> nat), (0 <= aw)%Z -> (0 <= delay < 2 ^ aw)%Z -> (delay < len <= 2 ^ aw)%Z ->
  2 <= depth ->
  (forall k, genlock_frame (fun t => gli_vs (i t)) (rr k) (rr (S k))) ->
  (forall t, rr 0 <= t -> gli_valid (i t) = true /\ gli_base (i t) = base /\ gli_length (i t) = len) ->
  (forall t, rr 0 <= t -> gli_sv (i t) = true /\ gli_mem (i t) = true /\ gli_ret (i t) = true /\ gli_ready (i t) = true) ->
  let n := Z.to_nat (len - delay) in
  (forall k, rr k + n + depth + 4 <= rr (S k)) ->
  waiting (gl_dr (rg_run aw delay depth i (rr 0))) ->
  forall k m, 1 <= k -> rr k + m < rr (S k) ->
  rg_out aw delay depth i (rr k + m) = if (5 <=? m) && (m <? 5 + n) then Some ((base + delay + Z.of_nat (m - 5)) mod 2 ^ aw)%Z else None.
Proof.
  intros aw delay depth i base len rr Haw Hd Hlen D2 Hf Hc Hi n HL W0.
  assert (M : forall k, rr 0 <= rr k) by (induction k as [|k IH]; [lia|]; destruct (Hf k); lia).
  assert (Hi' : forall t, rr 0 <= t -> gli_mem (i t) = true /\ rg_drains i t = true).
  { intros t T. destruct (Hi t T) as (A & B & C & D). unfold rg_drains. rewrite A, B, C, D. auto. }
  assert (G : forall k, waiting (gl_dr (rg_run aw delay depth i (rr k))) ->
    gl_reads (rg_run aw delay depth i (rr (S k))) = [] /\ waiting (gl_dr (rg_run aw delay depth i (rr (S k))))).
  { intros k W. pose proof (M k) as Mk. pose proof (HL k) as HLk.
    destruct (rg_frame aw delay depth i base len (rr k) (rr (S k)) Haw Hd Hlen (Hf k)) as (_ & X); [intros t T; apply Hc; lia|exact W| |exact X].
    exists (rr k + 4 + n). split; [lia|]. split.
    - rewrite occ_all; [fold n; lia|]. intros t T. apply (id_accepts aw delay depth i base len (rr k) (rr (S k)) Haw Hd Hlen (Hf k)); try assumption; try lia.
      + intros u U. apply Hc. lia.
      + intros u U. apply Hi'. lia.
    - rewrite occ_all; [lia|]. intros t T. apply Hi'. lia. }
  assert (WW : forall k, waiting (gl_dr (rg_run aw delay depth i (rr k)))) by (induction k as [|k IH]; [exact W0|apply (G k IH)]).
  intros k m K L. destruct k as [|k]; [lia|]. pose proof (M (S k)) as Mk.
  apply (id_out aw delay depth i base len (rr (S k)) (rr (S (S k))) Haw Hd Hlen (Hf (S k))); try assumption.
  - intros u U. apply Hc. lia.
  - intros u U. apply Hi'. lia.
  - apply WW.
  - apply (G k (WW k)).
Qed.
Print Assumptions C146_exact_clock.

(** The stream of [ex_gl_in], for which the rgb mode shows every frame rotated (C81_enabled_mid_frame_refuted): raw mode sends every frame from
    the second on at its place. *)
Example ex_rg_rotates_not : forall k m, 1 <= k -> m < 20 ->
  rg_out 8 0 8 ex_gl_in (ex_gl_r k + m) = if (5 <=? m) && (m <? 9) then Some (16 + Z.of_nat (m - 5))%Z else None.
Proof.
  intros k m K L.
  rewrite (C146_exact_clock 8 0 8 ex_gl_in 16 4 ex_gl_r) with (k := k) (m := m).
  - change (Z.to_nat (4 - 0)) with 4. destruct (Nat.leb_spec 5 m); [|reflexivity]. cbn [andb]. change (5 + 4) with 9. destruct (Nat.ltb_spec m 9); [|reflexivity].
    f_equal. apply Z.mod_small. change (2 ^ 8)%Z with 256%Z. lia.
  - lia.
  - lia.
  - lia.
  - lia.
  - intros j. apply ex_gl_frames.
  - intros t T. unfold ex_gl_in; cbn [gli_valid gli_base gli_length]. unfold ex_gl_r in T. split; [apply Nat.leb_le; lia|split; reflexivity].
  - intros t T. repeat split; reflexivity.
  - intros j. change (Z.to_nat (4 - 0)) with 4. unfold ex_gl_r. lia.
  - apply (C146_waits 8 0 8 ex_gl_in 16 4 31 31 40); try lia.
    + reflexivity.
    + intros t _. split; reflexivity.
    + intros t T. assert (G : forallb (fun t => negb (rises (fun t => gli_vs (ex_gl_in t)) t)) (seq 31 9) = true) by (vm_compute; reflexivity).
      rewrite forallb_forall in G. apply negb_true_iff. apply G, in_seq. lia.
    + apply Nat.leb_le. vm_compute. reflexivity.
  - exact K.
  - unfold ex_gl_r. lia.
Qed.
