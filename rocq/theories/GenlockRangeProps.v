(** C135: the words a reader takes, for every delay and every length. *)
From Coq Require Import ZArith List Bool Lia Arith.
From Verif Require Import Hdl Trace VideoOutModel VideoOutProps.
Import ListNotations.
Open Scope nat_scope.

(** ** Specification *)

(** Word [a] belongs to the buffer of [len] words at [base]; addresses wrap at [2 ^ aw]. *)
Definition in_buffer (aw base len a : Z) : Prop := exists k, (0 <= k < len)%Z /\ a = ((base + k) mod 2 ^ aw)%Z.
(** The word a pass starts from, counted from the base. *)
Definition first_word (genlock : bool) (aw delay : Z) : Z := if genlock then (delay mod 2 ^ aw)%Z else 0%Z.
(** The words of a pass: from the first one up, wrapping, to the last one of the buffer. *)
Definition pass_words (genlock : bool) (aw delay len : Z) : nat := S (Z.to_nat ((len - 1 - first_word genlock aw delay) mod 2 ^ aw)).
(** The reader is idle and gets a frame at clock [t]; from then on, for [n] clocks, the frame stays. *)
Definition frame_from (genlock : bool) (aw delay : Z) (i : nat -> dr_in) (base len : Z) (t n : nat) : Prop :=
  dr_state (dr_run genlock aw delay i t) = DR_IDLE /\ dri_valid (i t) = true /\
  forall u, t < u <= t + n -> dri_base (i u) = base /\ dri_length (i u) = len.

(** ** Proof *)

Lemma first_word_range : forall g aw delay, (0 <= aw)%Z -> (0 <= first_word g aw delay < 2 ^ aw)%Z.
Proof.
  intros g aw delay H. pose proof (Z.pow_pos_nonneg 2 aw ltac:(lia) H). unfold first_word.
  destruct g; [apply Z.mod_pos_bound; lia|lia].
Qed.

(** While fewer than all words of a pass have been taken, and at the end of it. *)
Lemma walk : forall g aw delay i base len t, (0 <= aw)%Z -> (0 <= len <= 2 ^ aw)%Z -> forall n,
  frame_from g aw delay i base len t n ->
  let o := occurrences (fun x => dri_ready (i x)) (S t) n in
  let s := dr_run g aw delay i (S t + n) in
  (len = 0%Z \/ o < pass_words g aw delay len ->
    addresses g aw delay i (S t) n = map (fun k => (base + first_word g aw delay + Z.of_nat k) mod 2 ^ aw)%Z (seq 0 o) /\
    dr_state s = DR_READ /\ dr_offset s = ((first_word g aw delay + Z.of_nat o) mod 2 ^ aw)%Z).
Proof.
  intros g aw delay i base len t Haw Hlen. pose proof (Z.pow_pos_nonneg 2 aw ltac:(lia) Haw) as HP.
  pose proof (first_word_range g aw delay Haw) as HF.
  induction n as [|n IH]; intros (F1 & F2 & F3) o s H.
  - subst o s. rewrite Nat.add_0_r. cbn [occurrences seq map]. split; [reflexivity|].
    change (dr_run g aw delay i (S t)) with (dr_step g aw delay (dr_run g aw delay i t) (i t)).
    unfold dr_step; cbn [dr_state dr_offset]. rewrite F1, F2. split; [reflexivity|].
    rewrite Z.add_0_r, Z.mod_small by exact HF. unfold first_word, trunc. destruct g; reflexivity.
  - assert (F' : frame_from g aw delay i base len t n) by (split; [exact F1|split; [exact F2|intros u U; apply F3; lia]]).
    specialize (IH F'). cbv zeta in IH.
    destruct (F3 (S t + n) ltac:(lia)) as [B E].
    subst o s. cbn [occurrences] in H |- *.
    set (o := occurrences (fun x => dri_ready (i x)) (S t) n) in *.
    assert (H' : len = 0%Z \/ o < pass_words g aw delay len) by (destruct (dri_ready (i (S t + n))); lia).
    destruct (IH H') as (I1 & I2 & I3).
    unfold addresses in I1 |- *. cbn [collect]. rewrite I1.
    unfold dr_taken at 1. unfold dr_addr_valid at 1, dr_addr at 1. rewrite I2, I3, B. cbn [andb].
    replace (S t + S n) with (S (S t + n)) by lia.
    change (dr_run g aw delay i (S (S t + n))) with (dr_step g aw delay (dr_run g aw delay i (S t + n)) (i (S t + n))).
    unfold dr_step; cbn [dr_state dr_offset]. unfold dr_done, dr_addr_valid. rewrite I2, I3, E. cbn [andb].
    destruct (dri_ready (i (S t + n))); cbn [andb].
    + rewrite seq_app, map_app. cbn [seq map Nat.add].
      split; [unfold trunc; f_equal; f_equal; rewrite Zplus_mod_idemp_r, Z.add_assoc; reflexivity|].
      assert (NE : ((first_word g aw delay + Z.of_nat o) mod 2 ^ aw <> len - 1)%Z).
      { intros X. pose proof (Z.mod_pos_bound (first_word g aw delay + Z.of_nat o) (2 ^ aw) HP).
        destruct H as [H|H]; [lia|]. unfold pass_words in H. apply (Nat.lt_irrefl o).
        rewrite <- X in H. replace ((first_word g aw delay + Z.of_nat o) mod 2 ^ aw - first_word g aw delay)%Z with
          ((first_word g aw delay + Z.of_nat o) mod 2 ^ aw + - first_word g aw delay)%Z in H by lia.
        rewrite Zplus_mod_idemp_l in H. replace (first_word g aw delay + Z.of_nat o + - first_word g aw delay)%Z with (Z.of_nat o) in H by lia.
        pose proof (Z.mod_le (Z.of_nat o) (2 ^ aw) ltac:(lia) HP). lia. }
      apply Z.eqb_neq in NE. rewrite NE. split; [reflexivity|].
      unfold trunc. rewrite Zplus_mod_idemp_l. f_equal. lia.
    + rewrite Nat.add_0_r, app_nil_r. auto.
Qed.

(** ** C135 *)

(** A pass over a buffer of one word or more: the words taken, and when the reader stops offering addresses, whatever the delay.
    Missing for the full statement (every word is in the buffer): a delay below the length, see [C135_outside_refuted]. *)
Theorem C135_pass_partial : forall g aw delay i base len t n, (0 <= aw)%Z -> (1 <= len <= 2 ^ aw)%Z ->
  frame_from g aw delay i base len t n ->
  let ready := occurrences (fun x => dri_ready (i x)) (S t) in
  (ready n <= pass_words g aw delay len -> (forall m, m < n -> ready m < pass_words g aw delay len) ->
   addresses g aw delay i (S t) n =
     map (fun k => (base + first_word g aw delay + Z.of_nat k) mod 2 ^ aw)%Z (seq 0 (ready n)) /\
   (dr_addr_valid (dr_run g aw delay i (S t + n)) = true <-> ready n < pass_words g aw delay len)) /\
  ((first_word g aw delay < len)%Z ->
   ready n <= pass_words g aw delay len -> (forall m, m < n -> ready m < pass_words g aw delay len) ->
   Forall (in_buffer aw base len) (addresses g aw delay i (S t) n)).
Proof.
  intros g aw delay i base len t n Haw Hlen F ready.
  pose proof (Z.pow_pos_nonneg 2 aw ltac:(lia) Haw) as HP.
  pose proof (first_word_range g aw delay Haw) as HF.
  assert (A : ready n <= pass_words g aw delay len -> (forall m, m < n -> ready m < pass_words g aw delay len) ->
   addresses g aw delay i (S t) n =
     map (fun k => (base + first_word g aw delay + Z.of_nat k) mod 2 ^ aw)%Z (seq 0 (ready n)) /\
   (dr_addr_valid (dr_run g aw delay i (S t + n)) = true <-> ready n < pass_words g aw delay len)).
  { intros H1 H2. destruct (Nat.eq_dec (ready n) (pass_words g aw delay len)) as [EQ|NE].
    - destruct n as [|n]; [unfold pass_words, ready in EQ; cbn [occurrences] in EQ; lia|].
      pose proof (H2 n ltac:(lia)) as H3. subst ready. cbv beta in *. cbn [occurrences] in EQ |- *.
      set (o := occurrences (fun x => dri_ready (i x)) (S t) n) in *.
      destruct F as (F1 & F2 & F3).
      destruct (walk g aw delay i base len t Haw ltac:(lia) n) as (I1 & I2 & I3);
        [split; [exact F1|split; [exact F2|intros u U; apply F3; lia]]|right; exact H3|]. fold o in I1, I3.
      destruct (dri_ready (i (S t + n))) eqn:R; [|lia].
      destruct (F3 (S t + n) ltac:(lia)) as [B E].
      unfold addresses in I1 |- *. cbn [collect]. rewrite I1.
      unfold dr_taken at 1. unfold dr_addr_valid at 1, dr_addr at 1. rewrite I2, I3, B, R. cbn [andb].
      replace (S t + S n) with (S (S t + n)) by lia.
      change (dr_run g aw delay i (S (S t + n))) with (dr_step g aw delay (dr_run g aw delay i (S t + n)) (i (S t + n))).
      unfold dr_step, dr_done, dr_addr_valid; cbn [dr_state]. rewrite I2, I3, E, R. cbn [andb].
      rewrite seq_app, map_app. cbn [seq map Nat.add].
      split; [unfold trunc; f_equal; f_equal; rewrite Zplus_mod_idemp_r, Z.add_assoc; reflexivity|].
      assert (X : ((first_word g aw delay + Z.of_nat o) mod 2 ^ aw = len - 1)%Z).
      { assert (O : Z.of_nat o = ((len - 1 - first_word g aw delay) mod 2 ^ aw)%Z).
        { unfold pass_words in EQ. pose proof (Z.mod_pos_bound (len - 1 - first_word g aw delay) (2 ^ aw) HP). lia. }
        rewrite O, Zplus_mod_idemp_r. replace (first_word g aw delay + (len - 1 - first_word g aw delay))%Z with (len - 1)%Z by lia.
        apply Z.mod_small. lia. }
      apply Z.eqb_eq in X. rewrite X. destruct g; split; intros Y; try discriminate; lia.
    - destruct (walk g aw delay i base len t Haw ltac:(lia) n F) as (I1 & I2 & I3); [right; unfold ready in *; lia|].
      split; [exact I1|]. unfold dr_addr_valid. rewrite I2. split; [unfold ready in *; lia|reflexivity]. }
  split; [exact A|]. intros HL H1 H2. destruct (A H1 H2) as [-> _].
  apply Forall_forall. intros a Ha. apply in_map_iff in Ha. destruct Ha as (k & <- & K). apply in_seq in K.
  exists (first_word g aw delay + Z.of_nat k)%Z. split; [|rewrite Z.add_assoc; reflexivity].
  unfold pass_words in H1. rewrite Z.mod_small in H1 by lia. lia.
Qed.
Print Assumptions C135_pass_partial.

(** With a delay of the length of the buffer or more a pass takes the whole rest of the memory: all words of a pass but the last [len]
    ones are outside the buffer. *)
Theorem C135_late_start_partial : forall g aw delay len, (0 <= aw)%Z -> (1 <= len <= first_word g aw delay)%Z ->
  Z.of_nat (pass_words g aw delay len) = (2 ^ aw - first_word g aw delay + len)%Z /\
  forall base k, (Z.of_nat k < 2 ^ aw - first_word g aw delay)%Z ->
    ~ in_buffer aw base len ((base + first_word g aw delay + Z.of_nat k) mod 2 ^ aw)%Z.
Proof.
  intros g aw delay len Haw Hl. pose proof (Z.pow_pos_nonneg 2 aw ltac:(lia) Haw) as HP.
  pose proof (first_word_range g aw delay Haw) as HF. split.
  - unfold pass_words. replace ((len - 1 - first_word g aw delay) mod 2 ^ aw)%Z with (len - 1 - first_word g aw delay + 2 ^ aw)%Z; [lia|].
    symmetry. rewrite <- (Z_mod_plus_full (len - 1 - first_word g aw delay) 1 (2 ^ aw)), Z.mul_1_l. apply Z.mod_small. lia.
  - intros base k K (j & J & E).
    assert (D : ((first_word g aw delay + Z.of_nat k - j) mod 2 ^ aw = 0)%Z).
    { replace (first_word g aw delay + Z.of_nat k - j)%Z with ((base + first_word g aw delay + Z.of_nat k) - (base + j))%Z by lia.
      rewrite Zminus_mod, E, Z.sub_diag. apply Z.mod_0_l. lia. }
    rewrite Z.mod_small in D by lia. lia.
Qed.
Print Assumptions C135_late_start_partial.

(** A frame of no words is never finished: the reader runs through the whole memory, round and round. *)
Theorem C135_empty_frame_partial : forall g aw delay i base t n, (0 <= aw)%Z ->
  frame_from g aw delay i base 0 t n ->
  let ready := occurrences (fun x => dri_ready (i x)) (S t) in
  addresses g aw delay i (S t) n = map (fun k => (base + first_word g aw delay + Z.of_nat k) mod 2 ^ aw)%Z (seq 0 (ready n)) /\
  dr_addr_valid (dr_run g aw delay i (S t + n)) = true.
Proof.
  intros g aw delay i base t n Haw F ready. pose proof (Z.pow_pos_nonneg 2 aw ltac:(lia) Haw) as HP.
  destruct (walk g aw delay i base 0 t Haw ltac:(lia) n F) as (I1 & I2 & I3); [left; reflexivity|].
  split; [exact I1|]. unfold dr_addr_valid. rewrite I2. reflexivity.
Qed.
Print Assumptions C135_empty_frame_partial.

(** Every delay of the length or more that fits the addresses leads outside, with the first word already; the pass of a delay equal to
    the length has [2 ^ aw] words. *)
Definition steady_frame (base len : Z) : nat -> dr_in :=
  fun _ => {| dri_valid := true; dri_base := base; dri_length := len; dri_ready := true; dri_vsync := false |}.
Theorem C135_outside_refuted : exists aw delay base len i t, (1 <= len < 2 ^ aw)%Z /\
  (forall n, frame_from true aw delay i base len t n) /\
  exists a, addresses true aw delay i (S t) 1 = [a] /\ ~ in_buffer aw base len a /\
  (Z.of_nat (pass_words true aw delay len) = 2 ^ aw)%Z.
Proof.
  exists 24%Z, 460800%Z, 1000%Z, 460800%Z, (steady_frame 1000 460800), 0.
  split; [split; [discriminate|reflexivity]|]. split; [intros n; split; [reflexivity|split; [reflexivity|intros u _; split; reflexivity]]|].
  exists 461800%Z. split; [vm_compute; reflexivity|].
  destruct (C135_late_start_partial true 24 460800 460800 ltac:(lia)) as [A B]; [vm_compute; split; discriminate|].
  split; [exact (B 1000%Z 0 ltac:(vm_compute; reflexivity))|]. rewrite A. reflexivity.
Qed.
Print Assumptions C135_outside_refuted.

(** A delay inside the buffer: three words of eight, and then the reader waits. *)
Example frame_ex : frame_from true 24 5 (steady_frame 100 8) 100 8 0 3.
Proof. split; [reflexivity|split; [reflexivity|intros u _; split; reflexivity]]. Qed.
Example pass_ex : pass_words true 24 5 8 = 3 /\ addresses true 24 5 (steady_frame 100 8) 1 6 = [105; 106; 107]%Z.
Proof. split; vm_compute; reflexivity. Qed.
(** A small memory: a delay of the length takes all 16 words, 13 of them outside. *)
Example round_ex : addresses true 4 3 (steady_frame 0 3) 1 30 = [3; 4; 5; 6; 7; 8; 9; 10; 11; 12; 13; 14; 15; 0; 1; 2]%Z.
Proof. vm_compute. reflexivity. Qed.
Example empty_ex : addresses false 2 0 (steady_frame 0 0) 1 9 = [0; 1; 2; 3; 0; 1; 2; 3; 0]%Z.
Proof. vm_compute. reflexivity. Qed.
