(** C80-C82: video output locked to an incoming stream. *)
From Coq Require Import ZArith List Bool Lia Arith.
From Verif Require Import Hdl Trace CdcProofs VideoOutModel VideoOutProps FifoModel FifoProofs FifoProps GenlockModel GenlockProofs.
Import ListNotations.
Open Scope nat_scope.

(** * C80 *)

(** The words of one pass over the buffer. *)
Definition pass (aw base delay len : Z) : list Z :=
  map (fun k => ((base + delay + Z.of_nat k) mod 2 ^ aw)%Z) (seq 0 (Z.to_nat (len - delay))).
Lemma pass_length : forall aw base delay len, length (pass aw base delay len) = Z.to_nat (len - delay).
Proof. intros. unfold pass. rewrite map_length, seq_length. reflexivity. Qed.

(** A genlock frame: vsync rises at [r], the next time at [e]. *)
Definition genlock_frame (vs : nat -> bool) (r e : nat) : Prop :=
  r < e /\ rises vs r = true /\ forall t, r < t < e -> rises vs t = false.

(** The reader has finished a pass and no start of frame is under way. *)
Definition waiting (s : dr_st) : Prop := dr_state s = DR_WAIT_SOF /\ dr_sof s = false.

(** In a frame the words taken by the memory are those of one pass, in order,
    from the fourth clock after the vsync edge on, one for each clock in which the
    memory accepts, until the pass is complete. *)
Theorem C80_one_pass_per_frame :
  forall aw delay i base len r e, (0 <= aw)%Z -> (0 <= delay < 2 ^ aw)%Z -> (delay < len <= 2 ^ aw)%Z ->
  genlock_frame (fun t => dri_vsync (i t)) r e ->
  (forall t, r <= t < e -> dri_valid (i t) = true /\ dri_base (i t) = base /\ dri_length (i t) = len) ->
  waiting (dr_run true aw delay i r) ->
  forall m, r + m <= e ->
  addresses true aw delay i r m =
    firstn (occurrences (fun t => dri_ready (i t)) (r + 4) (m - 4)) (pass aw base delay len) /\
  (e = r + m -> 4 <= m -> (waiting (dr_run true aw delay i e) <->
     Z.to_nat (len - delay) <= occurrences (fun t => dri_ready (i t)) (r + 4) (m - 4))).
Proof.
  intros aw delay i base len r e Haw Hd Hlen (RE & R1 & R2) Hc (W & SF) m L.
  assert (D : trunc aw delay = delay) by (apply trunc_id; lia).
  assert (Hlen' : (trunc aw delay < len <= 2 ^ aw)%Z) by (rewrite D; exact Hlen).
  pose proof (fr_run aw delay i base len r e Haw Hlen' RE Hc R1 R2 W SF) as P.
  pose proof (fr_le aw delay i base len r e Haw Hlen' RE Hc R1 R2 W SF m L) as LE. rewrite D in LE.
  assert (CNT : length (addresses true aw delay i r m) =
    Nat.min (Z.to_nat (len - delay)) (occurrences (fun t => dri_ready (i t)) (r + 4) (m - 4))).
  { destruct (Nat.le_gt_cases 4 m) as [M|M].
    - pose proof (fr_count aw delay i base len r e Haw Hlen' RE Hc R1 R2 W SF m L M) as C. rewrite D in C. exact C.
    - pose proof (fr_early aw delay i base len r e Haw Hlen' RE Hc R1 R2 W SF m L ltac:(lia)) as C.
      replace (m - 4) with 0 by lia. cbn [occurrences]. rewrite Nat.min_0_r. exact C. }
  split.
  - destruct (P m L) as [Q _]. unfold addresses in CNT |- *. rewrite D in Q. rewrite Q at 1.
    unfold pass. rewrite firstn_map. f_equal.
    set (o := occurrences (fun t => dri_ready (i t)) (r + 4) (m - 4)) in *. set (N := Z.to_nat (len - delay)) in *.
    rewrite CNT. assert (G : forall a n s, firstn a (seq s n) = seq s (Nat.min n a)).
    { clear. induction a as [|a IH]; intros n s; [rewrite Nat.min_0_r; reflexivity|]. destruct n; [reflexivity|]. cbn [seq firstn Nat.min]. rewrite IH. reflexivity. }
    rewrite G. reflexivity.
  - intros -> M.
    pose proof (fr_wait_iff aw delay i base len r (r + m) Haw Hlen' RE Hc R1 R2 W SF ltac:(lia)) as I. rewrite D in I.
    replace (r + m - r) with m in I by lia. unfold addresses in CNT.
    pose proof (fr_sof3 aw delay i len r (r + m) Haw Hlen' RE R2 m ltac:(lia) ltac:(lia)) as S3. unfold waiting. rewrite I, CNT.
    split; [intros [X _]; lia|intros X; split; [lia|exact S3]].
Qed.
Print Assumptions C80_one_pass_per_frame.

(** If the memory accepts often enough in each frame, each frame has its full
    pass, for ever. *)
Theorem C80_every_frame :
  forall aw delay i base len (rr : nat -> nat), (0 <= aw)%Z -> (0 <= delay < 2 ^ aw)%Z -> (delay < len <= 2 ^ aw)%Z ->
  (forall k, genlock_frame (fun t => dri_vsync (i t)) (rr k) (rr (S k))) ->
  (forall t, rr 0 <= t -> dri_valid (i t) = true /\ dri_base (i t) = base /\ dri_length (i t) = len) ->
  (forall k, Z.to_nat (len - delay) <= occurrences (fun t => dri_ready (i t)) (rr k + 4) (rr (S k) - rr k - 4)) ->
  waiting (dr_run true aw delay i (rr 0)) ->
  forall k, addresses true aw delay i (rr k) (rr (S k) - rr k) = pass aw base delay len.
Proof.
  intros aw delay i base len rr Haw Hd Hlen Hf Hc Ha W0.
  assert (M : forall k, rr 0 <= rr k) by (induction k as [|k IH]; [lia|]; destruct (Hf k); lia).
  assert (G : forall k, waiting (dr_run true aw delay i (rr k)) ->
    addresses true aw delay i (rr k) (rr (S k) - rr k) = pass aw base delay len /\ waiting (dr_run true aw delay i (rr (S k)))).
  { intros k W. pose proof (Ha k) as A. assert (B : 4 <= rr (S k) - rr k).
    { destruct (Nat.le_gt_cases 4 (rr (S k) - rr k)) as [|X]; [assumption|].
      replace (rr (S k) - rr k - 4) with 0 in A by lia. cbn [occurrences] in A. lia. }
    destruct (C80_one_pass_per_frame aw delay i base len (rr k) (rr (S k)) Haw Hd Hlen (Hf k)
      (fun t T => Hc t ltac:(pose proof (M k); lia)) W (rr (S k) - rr k) ltac:(lia)) as [P Q].
    split; [rewrite P; apply firstn_all2; rewrite pass_length; exact A|]. apply Q; [lia|exact B|exact A]. }
  assert (WW : forall k, waiting (dr_run true aw delay i (rr k))) by (induction k as [|k IH]; [exact W0|apply G, IH]).
  intros k. apply G, WW.
Qed.
Print Assumptions C80_every_frame.

(** A vsync edge that comes while the pass is not complete is ignored: the pass
    goes on, and no new one starts for that edge. *)
Theorem C80_edge_during_pass_ignored :
  forall aw delay i base len t n, (0 <= aw)%Z -> (len <= 2 ^ aw)%Z ->
  (forall x, t <= x < t + n -> dri_base (i x) = base /\ dri_length (i x) = len) ->
  let s := dr_run true aw delay i t in
  dr_state s = DR_READ -> (0 <= dr_offset s < len)%Z ->
  (Z.of_nat (occurrences (fun x => dri_ready (i x)) t n) < len - dr_offset s)%Z ->
  addresses true aw delay i t n =
    map (fun k => (base + dr_offset s + Z.of_nat k) mod 2 ^ aw)%Z (seq 0 (occurrences (fun x => dri_ready (i x)) t n)) /\
  dr_addr_valid (dr_run true aw delay i (t + n)) = true.
Proof.
  intros aw delay i base len t n Haw Hlen Hc s HR HO.
  enough (G : (Z.of_nat (occurrences (fun x => dri_ready (i x)) t n) < len - dr_offset s)%Z ->
    addresses true aw delay i t n =
    map (fun k => (base + dr_offset s + Z.of_nat k) mod 2 ^ aw)%Z (seq 0 (occurrences (fun x => dri_ready (i x)) t n)) /\
    dr_state (dr_run true aw delay i (t + n)) = DR_READ /\
    dr_offset (dr_run true aw delay i (t + n)) = (dr_offset s + Z.of_nat (occurrences (fun x => dri_ready (i x)) t n))%Z).
  { intros H. destruct (G H) as (A & B & _). split; [exact A|]. unfold dr_addr_valid. rewrite B. reflexivity. }
  induction n as [|n IH]; intros H.
  - rewrite Nat.add_0_r. cbn [occurrences]. split; [reflexivity|]. fold s. split; [exact HR|]. lia.
  - cbn [occurrences] in H |- *. destruct (Hc (t + n) ltac:(lia)) as [B E].
    destruct IH as (I1 & I2 & I3); [intros; apply Hc; lia|destruct (dri_ready (i (t + n))); lia|].
    set (o := occurrences (fun x => dri_ready (i x)) t n) in *.
    unfold addresses in I1 |- *. cbn [collect]. rewrite I1. unfold dr_taken at 1. unfold dr_addr_valid at 1, dr_addr at 1. rewrite I2, I3, B. cbn [andb].
    rewrite Nat.add_succ_r. change (dr_run true aw delay i (S (t + n))) with (dr_step true aw delay (dr_run true aw delay i (t + n)) (i (t + n))).
    unfold dr_step; cbn [dr_state dr_offset]. unfold dr_done, dr_addr_valid. rewrite I2, I3, E. cbn [andb].
    destruct (dri_ready (i (t + n))); cbn [andb].
    + rewrite seq_app, map_app. cbn [seq map Nat.add]. split; [unfold trunc; rewrite Z.add_assoc; reflexivity|].
      replace (dr_offset s + Z.of_nat o =? len - 1)%Z with false by (symmetry; apply Z.eqb_neq; lia).
      split; [reflexivity|]. rewrite trunc_id by lia. lia.
    + rewrite Nat.add_0_r, app_nil_r. auto.
Qed.
Print Assumptions C80_edge_during_pass_ignored.

(** * C81 *)

(** A clock in which the genlock stream has a pixel. *)
Definition gl_pixel (i : nat -> gl_in) (t : nat) : bool := gli_sv (i t) && gli_de (i t).
Definition gl_display aw delay depth (i : nat -> gl_in) (t : nat) : option Z := gl_shown (gl_run aw delay depth i t) (i t).

(** The frame after one that left the words [left] unshown, if every pixel of the
    stream gets a word. *)
Lemma gl_frame : forall aw delay depth i base len r e, (0 <= aw)%Z -> (0 <= delay < 2 ^ aw)%Z -> (delay < len <= 2 ^ aw)%Z ->
  genlock_frame (fun t => gli_vs (i t)) r e ->
  (forall t, r <= t < e -> gli_valid (i t) = true /\ gli_base (i t) = base /\ gli_length (i t) = len) ->
  waiting (gl_dr (gl_run aw delay depth i r)) ->
  (forall t, r <= t < e -> gl_pixel i t = true -> gl_display aw delay depth i t <> None) ->
  occurrences (gl_pixel i) r (e - r) = Z.to_nat (len - delay) ->
  let left := gl_reads (gl_run aw delay depth i r) in
  (left = [] \/ (r + 4 <= e /\ waiting (gl_dr (gl_run aw delay depth i e)))) ->
  collect (gl_display aw delay depth i) r (e - r) = firstn (Z.to_nat (len - delay)) (left ++ pass aw base delay len) /\
  gl_reads (gl_run aw delay depth i e) = skipn (Z.to_nat (len - delay)) (left ++ pass aw base delay len) /\
  waiting (gl_dr (gl_run aw delay depth i e)).
Proof.
  intros aw delay depth i base len r e Haw Hd Hlen Hf Hc W HS HN left HL.
  set (N := Z.to_nat (len - delay)) in *. assert (N1 : 1 <= N) by (unfold N; lia). pose proof (proj1 Hf) as RE.
  assert (Hc' : forall t, r <= t < e -> dri_valid (gl_fin aw delay depth i t) = true /\
    dri_base (gl_fin aw delay depth i t) = base /\ dri_length (gl_fin aw delay depth i t) = len) by (intros t T; apply (Hc t T)).
  rewrite !gl_dr_run in *.
  pose proof (gl_conserve aw delay depth i r (e - r) (fun t T => proj1 (Hc t ltac:(lia)))) as C.
  replace (r + (e - r)) with e in C by lia. fold left in C. fold (gl_display aw delay depth i) in C.
  set (tk := collect (fun t => dr_taken aw (dr_run true aw delay (gl_fin aw delay depth i) t) (gl_fin aw delay depth i t)) r (e - r)) in *.
  change (collect (fun t => gl_shown (gl_run aw delay depth i t) (i t)) r (e - r)) with (collect (gl_display aw delay depth i) r (e - r)) in C.
  assert (LS : length (collect (gl_display aw delay depth i) r (e - r)) = N).
  { rewrite collect_length, <- HN. apply occurrences_ext. intros t T. destruct (gl_display aw delay depth i t) eqn:E.
    - unfold gl_display, gl_shown, gl_svalid in E. unfold gl_pixel. destruct (gli_sv (i t)), (gli_de (i t)); cbn [andb] in *;
        rewrite ?andb_false_r in E; (reflexivity || discriminate).
    - destruct (gl_pixel i t) eqn:P; [|reflexivity]. exfalso. apply (HS t ltac:(lia) P E). }
  destruct (C80_one_pass_per_frame aw delay (gl_fin aw delay depth i) base len r e Haw Hd Hlen Hf Hc' W (e - r) ltac:(lia)) as [A B].
  change (addresses true aw delay (gl_fin aw delay depth i) r (e - r)) with tk in A.
  set (o := occurrences _ (r + 4) (e - r - 4)) in *.
  assert (T : N <= o /\ waiting (dr_run true aw delay (gl_fin aw delay depth i) e)).
  { destruct HL as [HL|HL].
    - rewrite HL in C. cbn [app] in C.
      assert (LT : N <= length tk) by (rewrite C, app_length; lia). rewrite A, firstn_length, pass_length in LT. fold N in LT.
      assert (O : N <= o) by lia. split; [exact O|].
      assert (4 <= e - r). { destruct (Nat.le_gt_cases 4 (e - r)) as [|X]; [assumption|]. unfold o in O. replace (e - r - 4) with 0 in O by lia. cbn [occurrences] in O. lia. }
      apply B; [lia|assumption|exact O].
    - destruct HL as [X HL]. split; [|exact HL]. apply B; [lia|lia|exact HL]. }
  destruct T as [O WE]. split; [|split; [|exact WE]].
  - assert (TK : tk = pass aw base delay len) by (rewrite A; apply firstn_all2; rewrite pass_length; exact O).
    rewrite <- TK, C, <- LS, firstn_app, Nat.sub_diag, firstn_all, firstn_O, app_nil_r. reflexivity.
  - assert (TK : tk = pass aw base delay len) by (rewrite A; apply firstn_all2; rewrite pass_length; exact O).
    rewrite <- TK, C, <- LS, skipn_app, Nat.sub_diag, skipn_all, skipn_O. reflexivity.
Qed.

(** No word left over when a frame begins: from then on every frame shows the
    words of the buffer in order, as long as no pixel finds the reader empty. *)
Theorem C81_aligned_partial :
  forall aw delay depth i base len (rr : nat -> nat), (0 <= aw)%Z -> (0 <= delay < 2 ^ aw)%Z -> (delay < len <= 2 ^ aw)%Z ->
  (forall k, genlock_frame (fun t => gli_vs (i t)) (rr k) (rr (S k))) ->
  (forall t, rr 0 <= t -> gli_valid (i t) = true /\ gli_base (i t) = base /\ gli_length (i t) = len) ->
  (forall k, occurrences (gl_pixel i) (rr k) (rr (S k) - rr k) = Z.to_nat (len - delay)) ->
  (forall t, rr 0 <= t -> gl_pixel i t = true -> gl_display aw delay depth i t <> None) ->
  waiting (gl_dr (gl_run aw delay depth i (rr 0))) -> gl_reads (gl_run aw delay depth i (rr 0)) = [] ->
  forall k, collect (gl_display aw delay depth i) (rr k) (rr (S k) - rr k) = pass aw base delay len.
Proof.
  intros aw delay depth i base len rr Haw Hd Hlen Hf Hc HN HS W0 R0.
  assert (M : forall k, rr 0 <= rr k) by (induction k as [|k IH]; [lia|]; destruct (Hf k); lia).
  assert (G : forall k, waiting (gl_dr (gl_run aw delay depth i (rr k))) -> gl_reads (gl_run aw delay depth i (rr k)) = [] ->
    collect (gl_display aw delay depth i) (rr k) (rr (S k) - rr k) = pass aw base delay len /\
    gl_reads (gl_run aw delay depth i (rr (S k))) = [] /\ waiting (gl_dr (gl_run aw delay depth i (rr (S k))))).
  { intros k W R.
    pose proof (gl_frame aw delay depth i base len (rr k) (rr (S k)) Haw Hd Hlen (Hf k) (fun t T => Hc t ltac:(pose proof (M k); lia)) W
      (fun t T => HS t ltac:(pose proof (M k); lia)) (HN k)) as Q. cbv zeta in Q. rewrite R in Q. specialize (Q (or_introl eq_refl)). cbn [app] in Q.
    rewrite firstn_all2 in Q by (rewrite pass_length; lia). rewrite skipn_all2 in Q by (rewrite pass_length; lia). exact Q. }
  assert (WW : forall k, waiting (gl_dr (gl_run aw delay depth i (rr k))) /\ gl_reads (gl_run aw delay depth i (rr k)) = []).
  { induction k as [|k [A B]]; [split; assumption|]. destruct (G k A B) as (_ & X & Y). split; assumption. }
  intros k. destruct (WW k) as [A B]. apply G; assumption.
Qed.
Print Assumptions C81_aligned_partial.

(** [u] words left over when a frame begins: every later frame is shown [u]
    pixels late, beginning with the last [u] words of the buffer. *)
Theorem C81_shift_kept_partial :
  forall aw delay depth i base len (rr : nat -> nat) u, (0 <= aw)%Z -> (0 <= delay < 2 ^ aw)%Z -> (delay < len <= 2 ^ aw)%Z ->
  (forall k, genlock_frame (fun t => gli_vs (i t)) (rr k) (rr (S k)) /\ rr k + 4 <= rr (S k)) ->
  (forall t, rr 0 <= t -> gli_valid (i t) = true /\ gli_base (i t) = base /\ gli_length (i t) = len) ->
  (forall k, occurrences (gl_pixel i) (rr k) (rr (S k) - rr k) = Z.to_nat (len - delay)) ->
  (forall t, rr 0 <= t -> gl_pixel i t = true -> gl_display aw delay depth i t <> None) ->
  (forall k, waiting (gl_dr (gl_run aw delay depth i (rr k)))) ->
  u <= Z.to_nat (len - delay) -> length (gl_reads (gl_run aw delay depth i (rr 0))) = u ->
  let n := Z.to_nat (len - delay) in let p := pass aw base delay len in
  forall k, collect (gl_display aw delay depth i) (rr (S k)) (rr (S (S k)) - rr (S k)) = skipn (n - u) p ++ firstn (n - u) p.
Proof.
  intros aw delay depth i base len rr u Haw Hd Hlen Hf Hc HN HS WW U R0 n p.
  assert (M : forall k, rr 0 <= rr k) by (induction k as [|k IH]; [lia|]; destruct (Hf k) as [[? _] _]; lia).
  assert (LP : length p = n) by apply pass_length.
  assert (Q : forall k, length (gl_reads (gl_run aw delay depth i (rr k))) = u ->
    collect (gl_display aw delay depth i) (rr k) (rr (S k) - rr k) = gl_reads (gl_run aw delay depth i (rr k)) ++ firstn (n - u) p /\
    gl_reads (gl_run aw delay depth i (rr (S k))) = skipn (n - u) p).
  { intros k R.
    pose proof (gl_frame aw delay depth i base len (rr k) (rr (S k)) Haw Hd Hlen (proj1 (Hf k)) (fun t T => Hc t ltac:(pose proof (M k); lia)) (WW k)
      (fun t T => HS t ltac:(pose proof (M k); lia)) (HN k)) as Q. cbv zeta in Q. fold n in Q. fold p in Q.
    destruct (Q (or_intror (conj (proj2 (Hf k)) (WW (S k))))) as (A & B & _).
    rewrite firstn_app, R in A. rewrite skipn_app, R in B. rewrite firstn_all2 in A by lia. rewrite skipn_all2 in B by lia. split; [exact A|exact B]. }
  assert (LR : forall k, length (gl_reads (gl_run aw delay depth i (rr k))) = u).
  { induction k as [|k IH]; [exact R0|]. destruct (Q k IH) as [_ B]. rewrite B, skipn_length, LP. lia. }
  intros k. destruct (Q (S k) (LR (S k))) as [A _]. destruct (Q k (LR k)) as [_ B]. rewrite A, B. reflexivity.
Qed.
Print Assumptions C81_shift_kept_partial.

(** Enabling in the middle of a frame: a stream of four pixels every twenty
    clocks, memory and consumer always ready; the output is enabled at the second
    pixel of the second frame and never loses a pixel afterwards, but every
    later frame is shown rotated by one word. *)
Definition ex_gl_in (t : nat) : gl_in :=
  {| gli_valid := 31 <=? t; gli_base := 16%Z; gli_length := 4%Z;
     gli_sv := true; gli_de := (10 <=? t mod 20) && (t mod 20 <? 14); gli_vs := Nat.eqb (t mod 20) 0;
     gli_mem := true; gli_ret := true; gli_ready := true |}.
Definition ex_gl_r (k : nat) : nat := 20 * k + 40.

Lemma ex_gl_per : forall k t, ex_gl_in (ex_gl_r k + t) = ex_gl_in (40 + t).
Proof.
  intros k t. unfold ex_gl_in, ex_gl_r. replace (20 * k + 40 + t) with (40 + t + k * 20) by lia. rewrite Nat.mod_add by lia.
  replace (31 <=? 40 + t + k * 20) with (31 <=? 40 + t) by (destruct (Nat.leb_spec 31 (40 + t)); destruct (Nat.leb_spec 31 (40 + t + k * 20)); lia || reflexivity).
  reflexivity.
Qed.
Lemma at_ext : forall (St In : Type) (step : St -> In -> St) (u v : nat -> In), (forall t, u t = v t) -> forall s n, at_ step s u n = at_ step s v n.
Proof. intros St In step u v H s n. induction n as [|n IH]; [reflexivity|]. cbn [at_]. rewrite IH, H. reflexivity. Qed.
Lemma at_plus : forall (St In : Type) (step : St -> In -> St) s (u : nat -> In) a n,
  at_ step s u (a + n) = at_ step (at_ step s u a) (fun k => u (a + k)) n.
Proof. intros St In step s u a n. induction n as [|n IH]; [rewrite Nat.add_0_r; reflexivity|]. rewrite Nat.add_succ_r. cbn [at_]. rewrite IH. reflexivity. Qed.

Lemma ex_gl_state : forall k t, gl_run 8 0 8 ex_gl_in (ex_gl_r k + t) = at_ (gl_step 8 0 8) (gl_run 8 0 8 ex_gl_in 40) (fun x => ex_gl_in (40 + x)) t.
Proof.
  assert (E : forall k t, gl_run 8 0 8 ex_gl_in (ex_gl_r k + t) = at_ (gl_step 8 0 8) (gl_run 8 0 8 ex_gl_in (ex_gl_r k)) (fun x => ex_gl_in (40 + x)) t).
  { intros k t. etransitivity; [apply at_plus|]. apply at_ext. apply ex_gl_per. }
  assert (P : forall k, gl_run 8 0 8 ex_gl_in (ex_gl_r k) = gl_run 8 0 8 ex_gl_in 40).
  { induction k as [|k IH]; [reflexivity|]. replace (ex_gl_r (S k)) with (ex_gl_r k + 20) by (unfold ex_gl_r; lia). rewrite E, IH. vm_compute. reflexivity. }
  intros k t. rewrite E, P. reflexivity.
Qed.
Lemma ex_gl_display : forall k t, gl_display 8 0 8 ex_gl_in (ex_gl_r k + t) = gl_display 8 0 8 ex_gl_in (40 + t).
Proof.
  intros k t. unfold gl_display. rewrite ex_gl_per, ex_gl_state. pose proof (ex_gl_state 0 t) as Q. change (ex_gl_r 0 + t) with (40 + t) in Q.
  rewrite <- Q. reflexivity.
Qed.
Lemma ex_gl_split : forall t, 40 <= t -> exists k x, t = ex_gl_r k + x /\ x < 20.
Proof.
  intros t T. exists ((t - 40) / 20), ((t - 40) mod 20). pose proof (Nat.div_mod (t - 40) 20 ltac:(lia)).
  pose proof (Nat.mod_upper_bound (t - 40) 20 ltac:(lia)). unfold ex_gl_r. lia.
Qed.
Lemma ex_gl_frames : forall k, genlock_frame (fun t => gli_vs (ex_gl_in t)) (ex_gl_r k) (ex_gl_r (S k)) /\ ex_gl_r k + 4 <= ex_gl_r (S k).
Proof.
  intros k. split; [|unfold ex_gl_r; lia]. split; [unfold ex_gl_r; lia|].
  assert (V : forall x, gli_vs (ex_gl_in (ex_gl_r k + x)) = gli_vs (ex_gl_in (40 + x))) by (intros x; rewrite ex_gl_per; reflexivity).
  split.
  - unfold rises. replace (ex_gl_r k) with (S (20 * k + 39)) by (unfold ex_gl_r; lia). unfold ex_gl_in; cbn [gli_vs].
    replace (S (20 * k + 39)) with (0 + (k + 2) * 20) by lia. replace (20 * k + 39) with (19 + (k + 1) * 20) by lia. rewrite !Nat.mod_add by lia. reflexivity.
  - intros t T. unfold rises. destruct (gli_vs (ex_gl_in t)) eqn:E; [|reflexivity]. exfalso.
    replace t with (ex_gl_r k + (t - ex_gl_r k)) in E by lia. rewrite V in E. assert (X : 0 < t - ex_gl_r k < 20) by (unfold ex_gl_r in *; lia).
    revert E X. generalize (t - ex_gl_r k) as x. intros x E X. unfold ex_gl_in in E; cbn [gli_vs] in E.
    replace (40 + x) with (x + 2 * 20) in E by lia. rewrite Nat.mod_add, Nat.mod_small in E by lia. apply Nat.eqb_eq in E. lia.
Qed.

Theorem C81_enabled_mid_frame_refuted :
  exists aw delay depth i base len (rr : nat -> nat), (0 <= delay < len)%Z /\ (len <= 2 ^ aw)%Z /\
  (forall k, genlock_frame (fun t => gli_vs (i t)) (rr k) (rr (S k))) /\
  (forall t, rr 0 <= t -> gli_valid (i t) = true /\ gli_base (i t) = base /\ gli_length (i t) = len) /\
  (forall k, occurrences (gl_pixel i) (rr k) (rr (S k) - rr k) = Z.to_nat (len - delay)) /\
  (forall t, rr 0 <= t -> gl_pixel i t = true -> gl_display aw delay depth i t <> None) /\
  (forall k, collect (gl_display aw delay depth i) (rr k) (rr (S k) - rr k) <> pass aw base delay len).
Proof.
  exists 8%Z, 0%Z, 8, ex_gl_in, 16%Z, 4%Z, ex_gl_r. split; [lia|]. split; [lia|]. split; [apply ex_gl_frames|].
  assert (C : forall (A : Type) (f g : nat -> option A) a b n, (forall x, f (a + x) = g (b + x)) -> collect f a n = collect g b n).
  { intros A f g a b n H. induction n as [|n IH]; [reflexivity|]. cbn [collect]. rewrite IH, H. reflexivity. }
  assert (O : forall (f g : nat -> bool) a b n, (forall x, f (a + x) = g (b + x)) -> occurrences f a n = occurrences g b n).
  { intros f g a b n H. induction n as [|n IH]; [reflexivity|]. cbn [occurrences]. rewrite IH, H. reflexivity. }
  assert (D20 : forall k, ex_gl_r (S k) - ex_gl_r k = 20) by (intros; unfold ex_gl_r; lia).
  split.
  { intros t T. unfold ex_gl_in; cbn [gli_valid gli_base gli_length]. split; [|split; reflexivity]. apply Nat.leb_le. unfold ex_gl_r in T. lia. }
  split.
  { intros k. rewrite D20, (O _ (gl_pixel ex_gl_in) (ex_gl_r k) 40); [vm_compute; reflexivity|]. intros x. unfold gl_pixel. rewrite ex_gl_per. reflexivity. }
  split.
  - intros t T P. destruct (ex_gl_split t) as (k & x & -> & X); [unfold ex_gl_r in T; lia|]. rewrite ex_gl_display.
    unfold gl_pixel in P. rewrite ex_gl_per in P.
    assert (A : forallb (fun x => negb (gl_pixel ex_gl_in (40 + x)) || match gl_display 8 0 8 ex_gl_in (40 + x) with Some _ => true | None => false end) (seq 0 20) = true)
      by (vm_compute; reflexivity).
    rewrite forallb_forall in A. specialize (A x ltac:(apply in_seq; lia)). unfold gl_pixel in A. rewrite P in A. cbn [negb orb] in A.
    destruct (gl_display 8 0 8 ex_gl_in (40 + x)); discriminate.
  - intros k. rewrite D20, (C _ _ (gl_display 8 0 8 ex_gl_in) (ex_gl_r k) 40) by apply ex_gl_display. vm_compute. discriminate.
Qed.
Print Assumptions C81_enabled_mid_frame_refuted.

(** The same stream enabled between vsync and the first pixel: the hypotheses of
    C81_aligned_partial hold (checked for the frames up to clock 200). *)
Definition ex_gl_ok (t : nat) : gl_in :=
  {| gli_valid := 24 <=? t; gli_base := 16%Z; gli_length := 4%Z;
     gli_sv := true; gli_de := (10 <=? t mod 20) && (t mod 20 <? 14); gli_vs := Nat.eqb (t mod 20) 0;
     gli_mem := true; gli_ret := true; gli_ready := true |}.
Example ex_gl_aligned : waiting (gl_dr (gl_run 8 0 8 ex_gl_ok 40)) /\ gl_reads (gl_run 8 0 8 ex_gl_ok 40) = [] /\
  collect (gl_display 8 0 8 ex_gl_ok) 40 20 = [16; 17; 18; 19]%Z /\ collect (gl_display 8 0 8 ex_gl_ok) 20 20 = [16; 17; 18; 19]%Z /\
  forallb (fun t => negb (gl_pixel ex_gl_ok t) || match gl_display 8 0 8 ex_gl_ok t with Some _ => true | None => false end) (seq 40 160) = true.
Proof. vm_compute. repeat split; reflexivity. Qed.
(** Hypotheses of C80 in the same execution. *)
Example ex_gl_pass : waiting (dr_run true 8 0 (gl_fin 8 0 8 ex_gl_ok) 40) /\
  addresses true 8 0 (gl_fin 8 0 8 ex_gl_ok) 40 20 = pass 8 16 0 4 /\
  occurrences (fun t => dri_ready (gl_fin 8 0 8 ex_gl_ok t)) 44 16 = 16.
Proof. vm_compute. repeat split; reflexivity. Qed.

(** * C82 *)

(** The parameters used in genlock mode are the registers at the first system
    clock edge at which the output was enabled, for ever, whatever software
    writes or disables later. *)
Theorem C82_first_parameters_for_ever :
  forall mem ra (i : nat -> ini_in), length mem = 4 -> let j := fun x => gl_ini (i x) in
  forall t v, ini_out (ini_run mem ra j t) = Some v ->
  (forall u, t <= u -> ini_out (ini_run mem ra j u) = Some v) /\
  exists u, u < t /\ ini_sys (i u) = true /\ enabled_at mem ra j u = true /\ v = regs_at mem ra j u /\
    forall x, x < u -> ini_sys (i x) = true -> enabled_at mem ra j x = false.
Proof.
  intros mem ra i L j t v E. assert (HM : Z.of_nat (length mem) = (2 ^ 2)%Z) by (rewrite L; reflexivity). split.
  - intros u U. induction U as [|u U IH]; [exact E|]. apply (C78_held mem ra j L u v IH). cbn [j gl_ini ini_cd ini_rdy]. apply andb_false_r.
  - destruct (ini_offer mem ra j L t v E) as (A & B & C & D). cbv zeta in A, B, C, D.
    set (fi := ini_fi mem ra j) in *. set (wr := f_wr _ 2 mem ra fi) in *. set (rd := f_rd _ 2 mem ra fi) in *.
    set (u := instant wr (occurrences rd 0 t) t) in *.
    assert (R0 : forall x, rd x = false).
    { intros x. unfold rd, f_rd. cbn [fi ini_fi ai_re j gl_ini ini_rdy]. rewrite ?andb_false_r. reflexivity. }
    rewrite (occ_zero rd 0 t) in C by (intros; apply R0).
    exists u. split; [exact A|]. unfold wr, f_wr in B. cbn [fi ini_fi ai_w ai_we] in B. apply andb_prop in B as [B1 B2].
    apply andb_prop in B2 as [_ B2]. split; [exact B1|]. split; [exact B2|]. split; [exact D|].
    intros x X SX. destruct (enabled_at mem ra j x) eqn:EN; [|reflexivity]. exfalso.
    assert (Z0 : forall y, y <= u -> occurrences wr 0 y = 0) by (intros y Y; pose proof (occ_mono wr y u Y); lia).
    assert (WR : af_writable 2 (f_st _ 2 mem ra fi x) = true).
    { destruct (f_inv_all _ 2 [] mem ra fi ltac:(lia) HM x) as (P0 & P1 & C0 & C1 & I).
      rewrite (writable_spec _ 2%Z [] mem ra fi ltac:(lia) _ _ _ _ _ I). apply Z.ltb_lt. destruct I. unfold f_P, f_C in *. fold wr in fi_pord, fi_pc |- *.
      fold rd in fi_cp, fi_cord. rewrite (Z0 x) in * by lia. rewrite (occ_zero rd 0 x) in * by (intros; apply R0). change (2 ^ 2)%Z with 4%Z. lia. }
    assert (WX : wr x = true).
    { unfold wr, f_wr. rewrite WR. cbn [fi ini_fi ai_w ai_we]. cbn [j gl_ini ini_sys]. rewrite SX, EN. reflexivity. }
    pose proof (Z0 (S x) ltac:(lia)) as Q. cbn [occurrences Nat.add] in Q. rewrite WX in Q. lia.
Qed.
Print Assumptions C82_first_parameters_for_ever.

(** Software writes the timing, enables, disables, writes another base; the output keeps
    the first set. *)
Definition ex_gl_ini (t : nat) : ini_in :=
  {| ini_sys := true; ini_cd := true;
     ini_sw := match t with 0 => IwField 8 64%Z | 1 => IwField 9 32%Z | 2 => IwEnable true | 10 => IwEnable false | 12 => IwField 8 128%Z | 14 => IwEnable true | _ => IwNone end;
     ini_rdy := true; ini_mp := 0%Z; ini_mc := 0%Z |}.
Example ex_gl_kept : let run := ini_run (repeat [] 4) 0 (fun x => gl_ini (ex_gl_ini x)) in
  ini_out (run 5) = None /\ ini_out (run 6) = Some [0; 0; 0; 0; 0; 0; 0; 0; 64; 32]%Z /\
  ini_out (run 40) = Some [0; 0; 0; 0; 0; 0; 0; 0; 64; 32]%Z /\ ini_regs (run 40) = [0; 0; 0; 0; 0; 0; 0; 0; 128; 32]%Z.
Proof. vm_compute. repeat split; reflexivity. Qed.
