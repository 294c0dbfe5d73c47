(** Final theorems about frame capture: C21, C22, C23. *)
From Coq Require Import ZArith List Bool Lia Arith.
From Verif Require Import Hdl Trace AnalysisModel FrameProofs.
Import ListNotations.
Open Scope nat_scope.

(** Pixels presented, and words pushed into the FIFO, clock by clock. *)
Definition pixel_in (i : nat -> pk_in) (t : nat) : option Z := if pki_we (i t) then Some (pki_px (i t)) else None.
Definition word_out (F : nat) (i : nat -> pk_in) (t : nat) : option (bool * list Z) := pk_push (pk_run F i t).

(** [t1] starts a frame and there is no other start up to [t2]. *)
Definition frame_between (i : nat -> pk_in) (t1 t2 : nat) : Prop :=
  t1 < t2 /\ rises (fun t => pki_vsync (i t)) t1 = true /\
  forall t, t1 < t < t2 -> rises (fun t => pki_vsync (i t)) t = false.

(** ** C21 *)

(** The pixels of the clocks strictly between [t1] and [t2] are, in order, the
    concatenation of the words pushed from [t1+2] to [t2] (a word comes out one
    clock after its last pixel), each word read from its most significant lane
    down, followed by fewer than F pixels not yet pushed.
    Missing from the full statement: pack factor 1, see the refutation. *)
Theorem C21_words_are_pixels_partial :
  forall (k : nat), 1 <= k -> let F := 2 ^ k in
  forall (i : nat -> pk_in) (t1 t2 : nat), frame_between i t1 t2 ->
  exists rest, length rest < F /\
    collect (pixel_in i) (t1 + 1) (t2 - t1 - 1)
    = concat (map (fun w => rev (snd w)) (collect (word_out F i) (t1 + 2) (t2 - t1 - 1))) ++ rest /\
    (forall w, In w (collect (word_out F i) (t1 + 2) (t2 - t1 - 1)) -> length (snd w) = F).
Proof.
  intros k Hk F i t1 t2 (H12 & R & H).
  pose proof (filled_frame k Hk i t1 (t2 - t1 - 1) R) as X.
  replace (t1 + S (t2 - t1 - 1)) with t2 in X by lia.
  destruct (X H) as (rest & E & HT & _ & HW & _).
  exists rest. split; [exact HT|]. split.
  - rewrite Nat.add_1_r. exact E.
  - intros w Hw. rewrite <- (rev_length (snd w)). apply HW. apply in_map_iff. exists w. split; [reflexivity|exact Hw].
Qed.
Print Assumptions C21_words_are_pixels_partial.

(** With pack factor 1 (accepted by the assertion in the code) the one-bit
    counter makes every second pixel disappear: in a frame of [m] pixels on
    consecutive clocks only the pixels at even positions are pushed. *)
Theorem C21_pack_factor_one_refuted :
  forall (i : nat -> pk_in) (t1 m : nat),
  frame_between i t1 (t1 + 1 + m) ->
  (forall t, t1 < t < t1 + 1 + m -> pki_we (i t) = true) ->
  forall q, q < m ->
  word_out 1 i (t1 + 2 + q)
  = if Nat.even q then Some (Nat.eqb q 0 && negb (pk_valid (pk_run 1 i (t1 + 1))), [pki_px (i (t1 + 1 + q))]) else None.
Proof.
  intros i t1 m (_ & R & H) Hwe.
  assert (NF : forall n, pk_new_frame (pk_run 1 i n) (i n) = rises (fun t => pki_vsync (i t)) n)
    by (intros [|n]; reflexivity).
  assert (ST : forall n, pk_run 1 i (S n) = pk_step 1 (pk_run 1 i n) (i n)) by reflexivity.
  assert (INV : forall q, q < m ->
     pk_cnt (pk_run 1 i (t1 + 1 + q)) = (if Nat.even q then 0 else 1)%Z /\
     pk_sof (pk_run 1 i (t1 + 1 + q)) =
       (if Nat.eqb q 0 then true else if Nat.eqb q 1 then negb (pk_valid (pk_run 1 i (t1 + 1))) else false) /\
     (q <> 0 -> pk_valid (pk_run 1 i (t1 + 1 + q)) = Nat.odd q)).
  { induction q as [|q IH]; intros Hq.
    - rewrite Nat.add_0_r, Nat.add_1_r, ST. unfold pk_step. rewrite NF, R. cbn. repeat split. lia.
    - destruct (IH ltac:(lia)) as (A & B & C).
      replace (t1 + 1 + S q) with (S (t1 + 1 + q)) by lia. rewrite ST. unfold pk_step.
      rewrite NF, H, Hwe by lia. cbn [pk_cnt pk_sof pk_valid]. rewrite A, B.
      change (pk_bits 1) with 1%Z. rewrite Nat.even_succ, <- Nat.negb_even.
      rewrite <- Nat.negb_even, Nat.even_succ, <- Nat.negb_even.
      destruct (Nat.even q) eqn:E; cbn; repeat split.
      + destruct q as [|q]; [rewrite Nat.add_0_r; destruct (pk_valid _); reflexivity|].
        rewrite C by lia. rewrite <- Nat.negb_even, E. cbn [negb]. destruct q; [discriminate|reflexivity].
      + destruct q as [|q]; [discriminate|].
        rewrite C by lia. rewrite <- Nat.negb_even, E. reflexivity. }
  intros q Hq. unfold word_out, pk_push. destruct (INV q Hq) as (A & B & C).
  replace (t1 + 2 + q) with (S (t1 + 1 + q)) by lia. rewrite ST. unfold pk_step.
  rewrite NF, H, Hwe by lia. cbn [pk_valid pk_sof pk_lanes]. rewrite A, B.
  destruct (Nat.even q) eqn:E; [|reflexivity].
  cbn [seq map Nat.sub Z.of_nat Z.eqb Z.sub Z.add Z.opp Z.pos_sub].
  change (Z.of_nat 1 - 1)%Z with 0%Z. cbn [Z.eqb]. f_equal. f_equal.
  destruct q as [|q]; [rewrite Nat.add_0_r; destruct (pk_valid _); reflexivity|].
  rewrite C by lia. rewrite <- Nat.negb_even, E. cbn [negb]. destruct q; [discriminate|reflexivity].
Qed.
Print Assumptions C21_pack_factor_one_refuted.

(** Stream of one frame start and then pixels 1, 2, 3, ... *)
Definition ex_pk (first_pixel vs2 : nat) (t : nat) : pk_in :=
  {| pki_vsync := (t =? 1) || (t =? vs2);
     pki_we := (first_pixel <=? t) && negb (t =? vs2); pki_px := Z.of_nat (t - first_pixel + 1) |}.
Example ex_pack4 : collect (word_out 4 (ex_pk 3 100)) 3 10
  = [(true, [4; 3; 2; 1]); (false, [8; 7; 6; 5])]%Z.
Proof. vm_compute. reflexivity. Qed.
Example ex_pack1 : collect (word_out 1 (ex_pk 3 100)) 3 10
  = [(false, [1]); (false, [3]); (false, [5]); (false, [7]); (false, [9])]%Z.
Proof. vm_compute. reflexivity. Qed.

(** ** C22 *)

(** The frame before [t1] has left a number of pixels congruent to F-1 modulo F. *)
Definition leaves_short_group (i : nat -> pk_in) (F t0 t1 : nat) : Prop :=
  frame_between i t0 t1 /\ length (collect (pixel_in i) (t0 + 1) (t1 - t0 - 1)) mod F = F - 1.
Definition leaves_no_short_group (i : nat -> pk_in) (F t0 t1 : nat) : Prop :=
  frame_between i t0 t1 /\ length (collect (pixel_in i) (t0 + 1) (t1 - t0 - 1)) mod F <> F - 1.

Lemma cnt_at_start : forall k, 1 <= k -> forall i t0 t1, frame_between i t0 t1 ->
  pk_cnt (pk_run (2 ^ k) i t1)
  = Z.of_nat (length (collect (pixel_in i) (t0 + 1) (t1 - t0 - 1)) mod 2 ^ k).
Proof.
  intros k Hk i t0 t1 (H12 & R & H).
  pose proof (filled_frame k Hk i t0 (t1 - t0 - 1) R) as X.
  replace (t0 + S (t1 - t0 - 1)) with t1 in X by lia.
  pose proof (filled_cnt k Hk _ _ _ (X H)) as C. rewrite C, Nat.add_1_r.
  rewrite Nat2Z.inj_mod. reflexivity.
Qed.

(** The first word pushed after the start carries sof, the others do not,
    provided the previous frame did not leave F-1 pixels over. *)
Theorem C22_sof_partial :
  forall (k : nat), 1 <= k -> let F := 2 ^ k in
  forall (i : nat -> pk_in) (t0 t1 t2 : nat),
  leaves_no_short_group i F t0 t1 -> frame_between i t1 t2 ->
  forall n sof w, t1 < n <= t2 -> word_out F i n = Some (sof, w) ->
  sof = Nat.eqb (length (collect (word_out F i) (t1 + 2) (n - t1 - 2))) 0 /\ t1 + 2 <= n.
Proof.
  intros k Hk F i t0 t1 t2 (HF0 & Hmod) (H12 & R & H) n sof w Hn Hw.
  pose proof (cnt_at_start k Hk i t0 t1 HF0) as C.
  pose proof (valid_at_start k i t1 R) as V. fold F in V, C.
  assert (V0 : pk_valid (pk_run F i (S t1)) = false).
  { rewrite V, C. apply Z.eqb_neq. unfold F in *. pose proof (F_ge k Hk).
    intros E. apply Hmod. lia. }
  pose proof (sof_frame k Hk i t1 (n - t1 - 1) R) as S.
  replace (t1 + Datatypes.S (n - t1 - 1)) with n in S by lia.
  specialize (S ltac:(intros; apply H; lia)). fold F in S.
  unfold word_out, pk_push in Hw. destruct (pk_valid (pk_run F i n)) eqn:Vn; [|discriminate].
  injection Hw as <- <-.
  assert (t1 + 2 <= n).
  { destruct (Nat.eq_dec n (Datatypes.S t1)) as [->|]; [congruence|lia]. }
  split; [|assumption]. rewrite S, collect_length.
  replace (n - t1 - 1) with (Datatypes.S (n - t1 - 2)) by lia.
  assert (SPLIT : forall p a m, occurrences p a (Datatypes.S m) = (if p a then 1 else 0) + occurrences p (Datatypes.S a) m).
  { clear. intros p a m. induction m as [|m IH]; [cbn; rewrite Nat.add_0_r; destruct (p a); reflexivity|].
    change (occurrences p a (Datatypes.S (Datatypes.S m))) with (occurrences p a (Datatypes.S m) + (if p (a + Datatypes.S m) then 1 else 0)).
    rewrite IH. cbn [occurrences]. rewrite <- Nat.add_assoc. f_equal. f_equal. rewrite Nat.add_succ_r. reflexivity. }
  rewrite SPLIT, V0. replace (Datatypes.S (Datatypes.S t1)) with (t1 + 2) by lia.
  f_equal. rewrite Nat.add_0_l. apply occurrences_ext. intros t _. unfold word_out, pk_push.
  destruct (pk_valid (pk_run F i t)); reflexivity.
Qed.
Print Assumptions C22_sof_partial.

(** Otherwise the frame start pushes a stale word, tagged as the start of the
    frame, and no word of the new frame carries sof. *)
Theorem C22_sof_after_short_group_refuted :
  forall (k : nat), 1 <= k -> let F := 2 ^ k in
  forall (i : nat -> pk_in) (t0 t1 t2 : nat),
  leaves_short_group i F t0 t1 -> frame_between i t1 t2 ->
  (exists w, word_out F i (t1 + 1) = Some (true, w)) /\
  (forall n sof w, t1 + 2 <= n <= t2 -> word_out F i n = Some (sof, w) -> sof = false).
Proof.
  intros k Hk F i t0 t1 t2 (HF0 & Hmod) (H12 & R & H).
  pose proof (cnt_at_start k Hk i t0 t1 HF0) as C.
  pose proof (valid_at_start k i t1 R) as V. fold F in V, C. pose proof (F_ge k Hk) as HF. fold F in HF.
  assert (V1 : pk_valid (pk_run F i (S t1)) = true).
  { rewrite V, C. apply Z.eqb_eq. unfold F in *. lia. }
  pose proof (sof_frame k Hk i t1) as S. fold F in S.
  split.
  - unfold word_out, pk_push. rewrite Nat.add_1_r, V1.
    specialize (S 0 R ltac:(intros; lia)). rewrite Nat.add_1_r in S. rewrite S. eexists. reflexivity.
  - intros n sof w Hn Hw. specialize (S (n - t1 - 1) R ltac:(intros; apply H; lia)).
    replace (t1 + Datatypes.S (n - t1 - 1)) with n in S by lia.
    unfold word_out, pk_push in Hw. destruct (pk_valid (pk_run F i n)); [|discriminate].
    injection Hw as <- <-. rewrite S. apply Nat.eqb_neq.
    assert (G : forall p a m, p a = true -> 1 <= m -> occurrences p a m <> 0).
    { clear. intros p a m Hp Hm. induction Hm as [|m Hm IH]; cbn [occurrences]; [rewrite Nat.add_0_r, Hp; discriminate|lia]. }
    apply G; [exact V1|lia].
Qed.
Print Assumptions C22_sof_after_short_group_refuted.

(** Two frames of 7 pixels with F = 4: a stale word opens the second frame. *)
Definition ex_pk2 (t : nat) : pk_in :=
  {| pki_vsync := (t =? 1) || (t =? 12); pki_we := ((3 <=? t) && (t <? 10)) || ((14 <=? t) && (t <? 22));
     pki_px := Z.of_nat t |}.
Example ex_short : leaves_short_group ex_pk2 4 1 12 /\
  collect (word_out 4 ex_pk2) 2 24
  = [(true, [6; 5; 4; 3]); (true, [6; 9; 8; 7]); (false, [17; 16; 15; 14]); (false, [21; 20; 19; 18])]%Z.
Proof.
  split; [|vm_compute; reflexivity]. split; [|reflexivity].
  split; [lia|]. split; [reflexivity|]. intros t Ht.
  do 12 (destruct t as [|t]; [reflexivity || lia|]). lia.
Qed.
(** ... and of 8 pixels: fine. *)
Definition ex_pk3 (t : nat) : pk_in :=
  {| pki_vsync := (t =? 1) || (t =? 12); pki_we := ((3 <=? t) && (t <? 11)) || ((14 <=? t) && (t <? 22));
     pki_px := Z.of_nat t |}.
Example ex_no_short : leaves_no_short_group ex_pk3 4 1 12 /\
  map fst (collect (word_out 4 ex_pk3) 2 24) = [true; false; true; false].
Proof.
  split; [|vm_compute; reflexivity]. split; [|discriminate].
  split; [lia|]. split; [reflexivity|]. intros t Ht.
  do 12 (destruct t as [|t]; [reflexivity || lia|]). lia.
Qed.

(** ** C23 *)

(** The flag is up exactly when some word was refused with no reset request
    afterwards. *)
Theorem C23_overflow_flag :
  forall (i : nat -> ov_in) (n : nat),
  at_ ov_step false i n = true <->
  exists t, t < n /\ ovi_push (i t) = true /\ ovi_ready (i t) = false /\
    forall u, t < u < n -> ovi_reset (i u) = true -> ovi_push (i u) = true /\ ovi_ready (i u) = false.
Proof.
  intros i n. induction n as [|n IH].
  - cbn. split; [discriminate|intros (t & Ht & _); lia].
  - cbn [at_]. unfold ov_step at 1. destruct (ovi_push (i n) && negb (ovi_ready (i n))) eqn:E.
    + apply andb_true_iff in E. destruct E as [A B]. apply negb_true_iff in B.
      split; [intros _|reflexivity]. exists n. repeat split; try assumption; try lia.
    + assert (N : ovi_push (i n) = true -> ovi_ready (i n) = false -> False).
      { intros A B. rewrite A, B in E. discriminate. }
      destruct (ovi_reset (i n)) eqn:Rs.
      * split; [discriminate|]. intros (t & Ht & A & B & U). exfalso.
        destruct (Nat.eq_dec t n) as [->|Hne]; [tauto|].
        destruct (U n ltac:(lia) Rs). tauto.
      * rewrite IH. split; intros (t & Ht & A & B & U); exists t.
        -- repeat split; try assumption; try lia; intros; destruct (Nat.eq_dec u n) as [->|];
             try congruence; apply U; try assumption; lia.
        -- destruct (Nat.eq_dec t n) as [->|Hne]; [tauto|].
           repeat split; try assumption; try lia; apply U; try assumption; lia.
Qed.
Print Assumptions C23_overflow_flag.

Example ex_overflow :
  map (at_ ov_step false (fun t => {| ovi_push := true; ovi_ready := negb (t =? 3); ovi_reset := t =? 6 |})) (seq 0 9)
  = [false; false; false; false; true; true; true; false; false].
Proof. reflexivity. Qed.
