(** Lemmas about the character synchroniser. *)
From Coq Require Import ZArith List Bool Lia Arith.
From Verif Require Import Hdl TmdsModel TmdsSpec TmdsProofs CharSyncModel CharSyncSpec.
Import ListNotations.
Open Scope Z_scope.

(** ** Bits *)

Lemma testbit_of_bits : forall l j, Z.testbit (of_bits l) (Z.of_nat j) = nth j l false.
Proof.
  induction l as [|b r IH]; intros j.
  - cbn [of_bits]. rewrite Z.testbit_0_l. destruct j; reflexivity.
  - cbn [of_bits]. destruct j as [|j].
    + cbn [Z.of_nat nth]. rewrite Z.add_comm. destruct b; unfold b2z.
      * apply Z.testbit_odd_0.
      * rewrite Z.add_0_r. apply Z.testbit_even_0.
    + cbn [nth]. rewrite Nat2Z.inj_succ. rewrite Z.add_comm. destruct b; unfold b2z.
      * rewrite Z.testbit_odd_succ by lia. apply IH.
      * rewrite Z.add_0_r, Z.testbit_even_succ by lia. apply IH.
Qed.

Lemma testbit_slice : forall lo n x j, 0 <= lo -> 0 <= n -> 0 <= j ->
  Z.testbit (slice lo n x) j = if j <? n then Z.testbit x (lo + j) else false.
Proof.
  intros lo n x j Hlo Hn Hj. unfold slice. destruct (Z.ltb_spec j n).
  - rewrite Z.mod_pow2_bits_low by lia. rewrite Z.div_pow2_bits by lia. f_equal; lia.
  - apply Z.mod_pow2_bits_high; lia.
Qed.

Lemma testbit_pair : forall a b t, 0 <= a < 1024 -> 0 <= t ->
  Z.testbit (a + 1024 * b) t = if t <? 10 then Z.testbit a t else Z.testbit b (t - 10).
Proof.
  intros a b t Ha Ht. destruct (Z.ltb_spec t 10).
  - rewrite <- (Z.mod_pow2_bits_low (a + 1024 * b) 10) by lia.
    change (2 ^ 10) with 1024. rewrite Z.mul_comm, Z.mod_add by lia.
    rewrite Z.mod_small by lia. reflexivity.
  - replace (Z.testbit (a + 1024 * b) t) with (Z.testbit ((a + 1024 * b) / 2 ^ 10) (t - 10)).
    + change (2 ^ 10) with 1024. rewrite Z.mul_comm, Z.div_add by lia.
      rewrite Z.div_small by lia. reflexivity.
    + rewrite Z.div_pow2_bits by lia. f_equal; lia.
Qed.

Lemma serial_word : forall w m c, (c < 10)%nat ->
  serial w (10 * m + c) = Z.testbit (w m) (Z.of_nat c).
Proof.
  intros w m c Hc. unfold serial.
  replace ((10 * m + c) / 10)%nat with m.
  - replace ((10 * m + c) mod 10)%nat with c; [reflexivity|].
    rewrite Nat.mul_comm, Nat.add_comm, Nat.mod_add, Nat.mod_small by lia. reflexivity.
  - rewrite Nat.mul_comm, Nat.add_comm, Nat.div_add, Nat.div_small by lia. reflexivity.
Qed.

Lemma nth_word : forall b t j, (j < 10)%nat ->
  nth j (map (fun j => b (t + j)%nat) (seq 0 10)) false = b (t + j)%nat.
Proof.
  intros b t j Hj.
  rewrite (nth_indep _ false (b (t + 0)%nat)) by (rewrite map_length, seq_length; lia).
  rewrite (map_nth (fun j => b (t + j)%nat)). rewrite seq_nth by lia. reflexivity.
Qed.

(** The ten bits at alignment [p] of two consecutive words. *)
Lemma word_slice : forall w n p, (forall k, 0 <= w k < 1024) -> 0 <= p <= 9 ->
  slice p 10 (w n + 1024 * w (S n)) = word_from (serial w) (10 * n + Z.to_nat p).
Proof.
  intros w n p Hw Hp. apply Z.bits_inj'. intros j Hj.
  rewrite testbit_slice by lia. unfold word_from.
  rewrite <- (Z2Nat.id j Hj). rewrite testbit_of_bits. rewrite (Z2Nat.id j Hj).
  destruct (Z.ltb_spec j 10).
  - rewrite nth_word by lia. rewrite testbit_pair by (auto; lia).
    destruct (Z.ltb_spec (p + j) 10).
    + replace (10 * n + Z.to_nat p + Z.to_nat j)%nat with (10 * n + Z.to_nat (p + j))%nat by lia.
      rewrite serial_word by lia. f_equal; lia.
    + replace (10 * n + Z.to_nat p + Z.to_nat j)%nat with (10 * S n + Z.to_nat (p + j - 10))%nat by lia.
      rewrite serial_word by lia. f_equal; lia.
  - rewrite nth_overflow; [reflexivity|]. rewrite map_length, seq_length; lia.
Qed.

Lemma of_bits_bound : forall l, 0 <= of_bits l < 2 ^ Z.of_nat (length l).
Proof.
  induction l as [|b r IH]; [simpl; lia|].
  cbn [of_bits length]. rewrite Nat2Z.inj_succ, Z.pow_succ_r by lia.
  destruct b; unfold b2z; lia.
Qed.

Lemma word_from_bound : forall b t, 0 <= word_from b t < 1024.
Proof. intros b t. unfold word_from. apply (of_bits_bound (map _ (seq 0 10))). Qed.

Lemma serial_misaligned : forall w s t, serial (misaligned w s) t = serial w (t + s).
Proof.
  intros w s t. unfold serial at 1. unfold misaligned, word_from.
  rewrite testbit_of_bits.
  pose proof (Nat.mod_upper_bound t 10 ltac:(lia)).
  rewrite nth_word by lia. f_equal.
  pose proof (Nat.div_mod t 10 ltac:(lia)). lia.
Qed.

Lemma word_from_ext : forall b b' t, (forall k, b k = b' k) -> word_from b t = word_from b' t.
Proof. intros b b' t H. unfold word_from. f_equal. apply map_ext. intros; apply H. Qed.

Lemma word_from_shift : forall b s t, word_from (fun k => b (k + s)%nat) t = word_from b (t + s).
Proof.
  intros b s t. unfold word_from. f_equal. apply map_ext. intros j. f_equal. lia.
Qed.

Lemma word_from_misaligned : forall w s t,
  word_from (serial (misaligned w s)) t = word_from (serial w) (t + s).
Proof.
  intros. rewrite (word_from_ext _ (fun k => serial w (k + s)%nat)).
  - apply word_from_shift.
  - intros; apply serial_misaligned.
Qed.

Lemma word_from_aligned : forall w m, (forall k, 0 <= w k < 1024) ->
  word_from (serial w) (10 * m) = w m.
Proof.
  intros w m Hw. rewrite <- (Nat.add_0_r (10 * m)).
  change 0%nat with (Z.to_nat 0). rewrite <- word_slice by (auto; lia).
  unfold slice. change (2 ^ 0) with 1. rewrite Z.div_1_r.
  change (2 ^ 10) with 1024. rewrite Z.mul_comm, Z.mod_add by lia.
  apply Z.mod_small, Hw.
Qed.

(** ** Search *)

Lemma cs_match_spec : forall raw p, cs_match raw p = true <-> legal_control (slice p 10 raw).
Proof.
  intros raw p. unfold cs_match. rewrite legal_control_in.
  rewrite existsb_exists. change control_words with control_tokens. split.
  - intros (t & Ht & E). apply Z.eqb_eq in E. rewrite E. exact Ht.
  - intros H. exists (slice p 10 raw). split; [exact H|apply Z.eqb_refl].
Qed.

Lemma cs_search_found : forall raw pos, fst (cs_search raw pos) = true ->
  0 <= snd (cs_search raw pos) <= 9 /\ cs_match raw (snd (cs_search raw pos)) = true.
Proof.
  intros raw pos. unfold cs_search. cbn [fold_left].
  repeat match goal with
  | |- context [if cs_match raw ?k then _ else _] =>
      let E := fresh "E" in destruct (cs_match raw k) eqn:E
  end; cbn [fst snd]; intros H; try discriminate; split; try lia; assumption.
Qed.

Lemma cs_search_at : forall raw pos k, 0 <= k <= 9 -> cs_match raw k = true ->
  (forall p, k < p <= 9 -> cs_match raw p = false) -> cs_search raw pos = (true, k).
Proof.
  intros raw pos k Hk Hm Hn. unfold cs_search. cbn [fold_left].
  assert (k = 0 \/ k = 1 \/ k = 2 \/ k = 3 \/ k = 4 \/ k = 5 \/ k = 6 \/ k = 7 \/ k = 8 \/ k = 9) as C by lia.
  destruct C as [->|[->|[->|[->|[->|[->|[->|[->|[->| ->]]]]]]]]]; rewrite Hm;
  repeat (rewrite Hn by lia); reflexivity.
Qed.

(** ** Evidence for lock (C06) *)

Section Evidence.
Variable rc : Z.
Hypothesis Hrc : 1 <= rc.
Variable x : nat -> Z.
Hypothesis Hx : forall n, 0 <= x n < 1024.
Let st := cs_run rc cs_init x.

Lemma padded_range : forall n, 0 <= padded x n < 1024.
Proof. intros [|n]; [simpl; lia|apply Hx]. Qed.

Lemma st_raw1 : forall n, cs_raw1 (st n) = padded x n.
Proof. intros [|n]; reflexivity. Qed.

Lemma st_S : forall n, st (S n) = cs_step rc (st n) (x n).
Proof. reflexivity. Qed.

Lemma seen_match : forall n p, 0 <= p <= 9 ->
  cs_match (cs_raw1 (st n) + 1024 * x n) p = true <-> control_seen x n p.
Proof.
  intros n p Hp. rewrite cs_match_spec, st_raw1. unfold control_seen.
  rewrite <- word_slice by (auto using padded_range). reflexivity.
Qed.

Definition evid (n : nat) : Prop :=
  0 <= cs_cnt (st n) <= rc - 1 /\
  (cs_found (st n) = true -> (1 <= n)%nat /\ control_seen x (n - 1) (cs_pos (st n))) /\
  (forall j : nat, Z.of_nat j < cs_cnt (st n) ->
     (j + 2 <= n)%nat /\ control_seen x (n - 2 - j) (cs_prev (st n))).

Lemma bits_for_ok : forall v, 0 <= v -> v < 2 ^ bits_for v.
Proof.
  intros v Hv. unfold bits_for. destruct (Z.leb_spec v 0); [simpl; lia|].
  apply Z.log2_spec; lia.
Qed.

Lemma evid_all : forall n, evid n.
Proof.
  induction n as [|n (H1 & H2 & H3)].
  - split; [cbn; lia|]. split; [cbn; discriminate|]. cbn; intros; lia.
  - unfold evid. rewrite st_S. unfold cs_step; cbn [cs_cnt cs_found cs_pos cs_prev].
    split; [|split].
    + destruct (_ && _); [|lia]. destruct (Z.eqb_spec (cs_cnt (st n)) (rc - 1)); [lia|].
      rewrite trunc_id; [lia|]. pose proof (bits_for_ok (rc - 1) ltac:(lia)). lia.
    + intros F. apply cs_search_found in F. destruct F as [Hr F]. split; [lia|].
      replace (S n - 1)%nat with n by lia. apply seen_match; [lia|exact F].
    + intros j Hj. destruct (cs_found (st n)) eqn:F; cbn [andb] in Hj; [|lia].
      destruct (Z.eqb_spec (cs_pos (st n)) (cs_prev (st n))) as [E|]; [|lia].
      destruct (Z.eqb_spec (cs_cnt (st n)) (rc - 1)); [lia|].
      rewrite trunc_id in Hj.
      2:{ pose proof (bits_for_ok (rc - 1) ltac:(lia)). lia. }
      destruct (H2 eq_refl) as [Hn Hs].
      destruct j as [|j].
      * split; [lia|]. replace (S n - 2 - 0)%nat with (n - 1)%nat by lia. exact Hs.
      * destruct (H3 j ltac:(lia)) as [Hj2 Hs2]. split; [lia|].
        replace (S n - 2 - S j)%nat with (n - 2 - j)%nat by lia. rewrite E. exact Hs2.
Qed.

Lemma lock_evidence : forall n,
  (cs_synced (st n) = true -> cs_synced (st (S n)) = true) /\
  (cs_synced (st (S n)) <> cs_synced (st n) \/ cs_sel (st (S n)) <> cs_sel (st n) ->
   rc <= Z.of_nat n /\
   forall j : nat, Z.of_nat j < rc -> control_seen x (n - 1 - j) (cs_sel (st (S n)))).
Proof.
  intros n. destruct (evid_all n) as (H1 & H2 & H3).
  rewrite st_S. unfold cs_step; cbn [cs_synced cs_sel]. split.
  - intros ->. apply orb_true_r.
  - destruct (cs_found (st n)) eqn:F; cbn [andb orb]; [|intros [H|H]; congruence].
    destruct (Z.eqb_spec (cs_pos (st n)) (cs_prev (st n))) as [E|]; cbn [andb orb];
      [|intros [H|H]; congruence].
    destruct (Z.eqb_spec (cs_cnt (st n)) (rc - 1)) as [C|]; cbn [andb orb];
      [|intros [H|H]; congruence].
    intros _. destruct (H2 eq_refl) as [Hn Hs]. split.
    + destruct (Z.eq_dec rc 1) as [->|]; [lia|].
      destruct (H3 (Z.to_nat (rc - 2)) ltac:(lia)). lia.
    + intros [|j] Hj.
      * replace (n - 1 - 0)%nat with (n - 1)%nat by lia. exact Hs.
      * destruct (H3 j ltac:(lia)) as [Hj2 Hs2]. rewrite E.
        replace (n - 1 - S j)%nat with (n - 2 - j)%nat by lia. exact Hs2.
Qed.

End Evidence.

(** ** Control words in a stream of legal words *)

Definition beq (a b : list bool) : bool := list_eqb a b.

Lemma beq_refl : forall a b, a = b -> beq a b = true.
Proof. intros a b ->. unfold beq, list_eqb. destruct list_eq_dec; congruence. Qed.

Definition ctl_bits : list (list bool) := map (to_bits 10) control_words.
Definition legal_bits : list (list bool) := map (to_bits 10) (control_words ++ pixel_words).

(** A word cannot both end a straddling control word and start another one at
    the same bit offset. *)
Lemma chain_check :
  forallb (fun b => forallb (fun q =>
     negb (existsb (fun t => beq (skipn (10 - q) t) (firstn q b)) ctl_bits &&
           existsb (fun t => beq (firstn (10 - q) t) (skipn q b)) ctl_bits))
     [1;2;3;4;5;6;7;8;9]%nat) legal_bits = true.
Proof. vm_compute. reflexivity. Qed.

(** A control word followed by a legal word contains no straddling control word. *)
Lemma straddle_check :
  forallb (fun a => forallb (fun b => forallb (fun q =>
     negb (existsb (beq (skipn q a ++ firstn q b)) ctl_bits))
     [1;2;3;4;5;6;7;8;9]%nat) legal_bits) ctl_bits = true.
Proof. vm_compute. reflexivity. Qed.

Lemma legal_in_bits : forall w, legal_word w -> In (to_bits 10 w) legal_bits.
Proof.
  intros w H. unfold legal_bits. apply in_map. apply in_or_app. destruct H as [H|H].
  - left; apply legal_control_in, H.
  - right; apply legal_pixel_in, H.
Qed.

Lemma control_in_bits : forall w, legal_control w -> In (to_bits 10 w) ctl_bits.
Proof. intros w H. unfold ctl_bits. apply in_map. apply legal_control_in, H. Qed.

Lemma legal_range : forall w, legal_word w -> 0 <= w < 1024.
Proof.
  intros w [H|H].
  - apply legal_control_in in H. unfold control_words in H. cbn [In] in H. lia.
  - apply pixel_word_facts, H.
Qed.

Lemma to_of_bits10 : forall l, length l = 10%nat -> to_bits 10 (of_bits l) = l.
Proof.
  intros l Hl. unfold to_bits.
  apply (nth_ext _ _ false false); [rewrite map_length, seq_length; lia|].
  intros n Hn. rewrite map_length, seq_length in Hn.
  rewrite (nth_indep _ false (Z.testbit (of_bits l) (Z.of_nat 0))) by (rewrite map_length, seq_length; lia).
  rewrite (map_nth (fun k => Z.testbit (of_bits l) (Z.of_nat k))).
  rewrite seq_nth by lia. apply testbit_of_bits.
Qed.

Lemma word_from_split : forall w m q, (q <= 9)%nat ->
  map (fun j => serial w (10 * m + q + j)) (seq 0 10)
  = skipn q (to_bits 10 (w m)) ++ firstn q (to_bits 10 (w (S m))).
Proof.
  intros w m q Hq.
  assert (A : forall c, (c < 10)%nat -> serial w (10 * m + c) = Z.testbit (w m) (Z.of_nat c))
    by (intros; apply serial_word; lia).
  assert (B : forall c, (10 <= c < 20)%nat -> serial w (10 * m + c) = Z.testbit (w (S m)) (Z.of_nat (c - 10))).
  { intros c Hc. replace (10 * m + c)%nat with (10 * S m + (c - 10))%nat by lia. apply serial_word; lia. }
  do 10 (destruct q as [|q]; [
    cbn [seq map skipn firstn app to_bits];
    repeat (rewrite <- Nat.add_assoc; cbn [Nat.add]);
    repeat match goal with
    | |- context [serial w (10 * m + ?c)] =>
        first [rewrite (A c) by lia | rewrite (B c) by lia]
    end; reflexivity | ]).
  lia.
Qed.

Section Legal.
Variable W : nat -> Z.
Hypothesis HW : forall n, legal_word (W n).

Lemma word_from_bits : forall m q, (q <= 9)%nat ->
  to_bits 10 (word_from (serial W) (10 * m + q))
  = skipn q (to_bits 10 (W m)) ++ firstn q (to_bits 10 (W (S m))).
Proof.
  intros m q Hq. unfold word_from. rewrite to_of_bits10 by (rewrite map_length, seq_length; reflexivity).
  apply word_from_split, Hq.
Qed.

Lemma len_to_bits : forall n x, length (to_bits n x) = n.
Proof. intros; unfold to_bits; rewrite map_length, seq_length; reflexivity. Qed.

Lemma no_chain : forall m q, (1 <= q <= 9)%nat ->
  legal_control (word_from (serial W) (10 * m + q)) ->
  legal_control (word_from (serial W) (10 * S m + q)) -> False.
Proof.
  intros m q Hq H1 H2.
  apply control_in_bits in H1, H2. rewrite word_from_bits in H1, H2 by lia.
  pose proof chain_check as C. rewrite forallb_forall in C.
  specialize (C _ (legal_in_bits _ (HW (S m)))). rewrite forallb_forall in C.
  assert (Hin : In q [1;2;3;4;5;6;7;8;9]%nat) by (simpl; lia).
  specialize (C q Hin).
  apply negb_true_iff, andb_false_iff in C. destruct C as [C|C].
  - assert (existsb (fun t => beq (skipn (10 - q) t) (firstn q (to_bits 10 (W (S m))))) ctl_bits = true); [|congruence].
    apply existsb_exists. eexists; split; [exact H1|]. apply beq_refl.
    rewrite skipn_app. rewrite skipn_length, len_to_bits.
    rewrite (skipn_all2 (skipn q _)) by (rewrite skipn_length, len_to_bits; lia).
    replace (10 - q - (10 - q))%nat with 0%nat by lia. reflexivity.
  - assert (existsb (fun t => beq (firstn (10 - q) t) (skipn q (to_bits 10 (W (S m))))) ctl_bits = true); [|congruence].
    apply existsb_exists. eexists; split; [exact H2|]. apply beq_refl.
    rewrite firstn_app. rewrite skipn_length, len_to_bits.
    rewrite (firstn_all2 (skipn q _)) by (rewrite skipn_length, len_to_bits; lia).
    replace (10 - q - (10 - q))%nat with 0%nat by lia. rewrite firstn_O. apply app_nil_r.
Qed.

Lemma no_straddle : forall m q, (1 <= q <= 9)%nat -> legal_control (W m) ->
  ~ legal_control (word_from (serial W) (10 * m + q)).
Proof.
  intros m q Hq Hc H. apply control_in_bits in H, Hc. rewrite word_from_bits in H by lia.
  pose proof straddle_check as C. rewrite forallb_forall in C. specialize (C _ Hc).
  rewrite forallb_forall in C. specialize (C _ (legal_in_bits _ (HW (S m)))).
  rewrite forallb_forall in C.
  assert (Hin : In q [1;2;3;4;5;6;7;8;9]%nat) by (simpl; lia).
  specialize (C q Hin). apply negb_true_iff in C.
  assert (existsb (beq (skipn q (to_bits 10 (W m)) ++ firstn q (to_bits 10 (W (S m))))) ctl_bits = true); [|congruence].
  apply existsb_exists. eexists; split; [exact H|]. apply beq_refl. reflexivity.
Qed.

(** *** Lock *)

Variable rc : Z.
Hypothesis Hrc : 2 <= rc.
Variable s : nat.
Hypothesis Hs : (s < 10)%nat.
Variable st0 : cs_st.
Hypothesis Hst0 : 0 <= cs_cnt st0 <= rc - 1.
Let x := misaligned W s.
Let st := cs_run rc st0 x.
Let k := (10 - Z.of_nat s) mod 10.
(** Index of the word that is at alignment [k] in clock [n]. *)
Let idx (n : nat) := if Nat.eqb s 0 then (n - 1)%nat else n.

Lemma Wr : forall n, 0 <= W n < 1024.
Proof. intros; apply legal_range, HW. Qed.

Lemma xr : forall n, 0 <= x n < 1024.
Proof. intros; apply word_from_bound. Qed.

Lemma st_S' : forall n, st (S n) = cs_step rc (st n) (x n).
Proof. reflexivity. Qed.

Lemma win : forall n p, 0 <= p <= 9 ->
  slice p 10 (cs_raw1 (st (S n)) + 1024 * x (S n)) = word_from (serial W) (10 * n + (Z.to_nat p + s)).
Proof.
  intros n p Hp. rewrite st_S'. unfold cs_step; cbn [cs_raw1].
  rewrite word_slice by (auto using xr). unfold x. rewrite word_from_misaligned. f_equal. lia.
Qed.

Lemma k_spec : 0 <= k <= 9 /\ (s = 0%nat -> k = 0) /\ (s <> 0%nat -> k = 10 - Z.of_nat s).
Proof.
  unfold k. pose proof (Z.mod_pos_bound (10 - Z.of_nat s) 10 ltac:(lia)).
  split; [lia|]. split.
  - intros ->. reflexivity.
  - intros. apply Z.mod_small. lia.
Qed.

Lemma win_k : forall n, slice k 10 (cs_raw1 (st (S n)) + 1024 * x (S n)) = W (idx (S n)).
Proof.
  intros n. destruct k_spec as (K0 & K1 & K2). rewrite win by lia. unfold idx.
  destruct (Nat.eqb_spec s 0) as [E|E].
  - rewrite K1 by assumption. rewrite E.
    replace (10 * n + (Z.to_nat 0 + 0))%nat with (10 * n)%nat by (simpl; lia).
    rewrite word_from_aligned by apply Wr. f_equal; lia.
  - rewrite K2 by assumption.
    replace (10 * n + (Z.to_nat (10 - Z.of_nat s) + s))%nat with (10 * S n)%nat by lia.
    apply word_from_aligned, Wr.
Qed.

(** A control word at a wrong alignment straddles two words. *)
Lemma win_other : forall (n : nat) p, 0 <= p <= 9 -> p <> k ->
  exists q d : nat, (1 <= q <= 9)%nat /\ (Z.to_nat p + s = 10 * d + q)%nat.
Proof.
  intros n p Hp Hne. destruct k_spec as (K0 & K1 & K2).
  destruct (le_lt_dec 10 (Z.to_nat p + s)).
  - exists (Z.to_nat p + s - 10)%nat, 1%nat. split; [|lia].
    destruct (Nat.eq_dec s 0) as [E|E]; [specialize (K1 E)|specialize (K2 E)]; lia.
  - exists (Z.to_nat p + s)%nat, 0%nat. split; [|lia].
    destruct (Nat.eq_dec s 0) as [E|E]; [specialize (K1 E)|specialize (K2 E)]; lia.
Qed.

Lemma two_matches : forall n p, 0 <= p <= 9 ->
  cs_match (cs_raw1 (st (S n)) + 1024 * x (S n)) p = true ->
  cs_match (cs_raw1 (st (S (S n))) + 1024 * x (S (S n))) p = true -> p = k.
Proof.
  intros n p Hp H1 H2. destruct (Z.eq_dec p k) as [|Hne]; [assumption|exfalso].
  apply cs_match_spec in H1, H2. rewrite win in H1, H2 by lia.
  destruct (win_other n p Hp Hne) as (q & d & Hq & E).
  rewrite E in H1, H2.
  apply (no_chain (n + d) q Hq).
  - replace (10 * (n + d) + q)%nat with (10 * n + (10 * d + q))%nat by lia. exact H1.
  - replace (10 * S (n + d) + q)%nat with (10 * S n + (10 * d + q))%nat by lia. exact H2.
Qed.

Lemma control_search : forall n pos, legal_control (W (idx (S n))) ->
  cs_search (cs_raw1 (st (S n)) + 1024 * x (S n)) pos = (true, k).
Proof.
  intros n pos Hc. destruct k_spec as (K0 & K1 & K2). apply cs_search_at; [lia| |].
  - apply cs_match_spec. rewrite win_k. exact Hc.
  - intros p Hp. destruct (cs_match _ p) eqn:M; [exfalso|reflexivity].
    apply cs_match_spec in M. rewrite win in M by lia.
    unfold idx in Hc. destruct (Nat.eqb_spec s 0) as [E|E].
    + specialize (K1 E).
      apply (no_straddle n (Z.to_nat p + s)); [lia| |exact M].
      replace (S n - 1)%nat with n in Hc by lia. exact Hc.
    + specialize (K2 E).
      apply (no_straddle (S n) (Z.to_nat p + s - 10)); [lia|exact Hc|].
      replace (10 * S n + (Z.to_nat p + s - 10))%nat with (10 * n + (Z.to_nat p + s))%nat by lia.
      exact M.
Qed.

Lemma cnt_range : forall n, 0 <= cs_cnt (st n) <= rc - 1.
Proof.
  induction n as [|n IH]; [exact Hst0|].
  rewrite st_S'. unfold cs_step; cbn [cs_cnt].
  destruct (_ && _); [|lia]. destruct (Z.eqb_spec (cs_cnt (st n)) (rc - 1)); [lia|].
  rewrite trunc_id; [lia|]. pose proof (bits_for_ok (rc - 1) ltac:(lia)). lia.
Qed.

Lemma found_match : forall n, cs_found (st (S n)) = true ->
  0 <= cs_pos (st (S n)) <= 9 /\
  cs_match (cs_raw1 (st n) + 1024 * x n) (cs_pos (st (S n))) = true.
Proof.
  intros n. rewrite st_S'. unfold cs_step; cbn [cs_found cs_pos]. apply cs_search_found.
Qed.

Lemma cnt_pos : forall n, 0 < cs_cnt (st (S n)) ->
  cs_found (st n) = true /\ cs_prev (st (S n)) = cs_pos (st n).
Proof.
  intros n. rewrite st_S'. unfold cs_step; cbn [cs_cnt cs_prev].
  destruct (cs_found (st n)); cbn [andb]; intros; [auto|lia].
Qed.

(** From clock 3 on, a lock is always to the true alignment. *)
Lemma lock_true : forall n,
  cs_sel (st (S (S (S (S n))))) = cs_sel (st (S (S (S n)))) \/
  cs_sel (st (S (S (S (S n))))) = k.
Proof.
  intros n. set (m := S (S (S n))).
  rewrite st_S'. unfold cs_step; cbn [cs_sel].
  destruct (cs_found (st m)) eqn:F; cbn [andb]; [|left; reflexivity].
  destruct (Z.eqb_spec (cs_pos (st m)) (cs_prev (st m))) as [E|]; cbn [andb]; [|left; reflexivity].
  destruct (Z.eqb_spec (cs_cnt (st m)) (rc - 1)) as [C|]; cbn [andb]; [|left; reflexivity].
  right. unfold m in *.
  assert (C0 : 0 < cs_cnt (st (S (S (S n))))) by lia.
  destruct (cnt_pos _ C0) as [F2 E2].
  destruct (found_match _ F) as [R1 M1]. destruct (found_match _ F2) as [R2 M2].
  apply (two_matches n); [lia| |exact M1].
  rewrite E, E2. exact M2.
Qed.

Lemma synced_sticky : forall n, cs_synced (st n) = true -> cs_synced (st (S n)) = true.
Proof. intros n H. rewrite st_S'. unfold cs_step; cbn [cs_synced]. rewrite H. apply orb_true_r. Qed.

Lemma lock_stable : forall N, (3 <= N)%nat -> cs_synced (st N) = true -> cs_sel (st N) = k ->
  forall n, (N <= n)%nat -> cs_synced (st n) = true /\ cs_sel (st n) = k.
Proof.
  intros N HN H1 H2 n Hn. induction Hn as [|n Hn [IH1 IH2]]; [auto|].
  split; [apply synced_sticky, IH1|].
  destruct n as [|[|[|n]]]; try lia.
  destruct (lock_true n) as [E|E]; rewrite E; [exact IH2|reflexivity].
Qed.

Lemma locked_data : forall n, (1 <= n)%nat -> cs_sel (st n) = k ->
  cs_data (st (S n)) = W (idx n).
Proof.
  intros [|n] Hn Hk; [lia|].
  rewrite st_S'. unfold cs_step; cbn [cs_data]. rewrite Hk. apply win_k.
Qed.

(** Acquisition. *)
Lemma lock_acquired : forall m,
  (1 <= m)%nat ->
  (forall j : nat, Z.of_nat j <= rc -> legal_control (W (idx (m + j)))) ->
  let N := (m + Z.to_nat rc + 2)%nat in
  cs_synced (st N) = true /\ cs_sel (st N) = k.
Proof.
  intros m Hm Hc.
  assert (P : forall j : nat, Z.of_nat j <= rc ->
            cs_found (st (S (m + j))) = true /\ cs_pos (st (S (m + j))) = k).
  { intros j Hj. rewrite st_S'. unfold cs_step; cbn [cs_found cs_pos].
    destruct m as [|m']; [lia|]. specialize (Hc j Hj).
    replace (S m' + j)%nat with (S (m' + j)) in * by lia.
    rewrite control_search by exact Hc. auto. }
  assert (Q : forall j : nat, (1 <= j)%nat -> Z.of_nat j <= rc ->
            cs_prev (st (S (m + j))) = k).
  { intros j H1j Hj. rewrite st_S'. unfold cs_step; cbn [cs_prev].
    replace (m + j)%nat with (S (m + (j - 1))) by lia. apply P. lia. }
  assert (I : forall j : nat, Z.of_nat j <= rc ->
     (cs_synced (st (m + j + 2)) = true /\ cs_sel (st (m + j + 2)) = k) \/
     (Z.of_nat j <= cs_cnt (st (m + j + 2)))).
  { induction j as [|j IH]; intros Hj.
    - right. pose proof (cnt_range (m + 0 + 2)). simpl in *; lia.
    - replace (m + S j + 2)%nat with (S (S (m + S j))) by lia.
      destruct (IH ltac:(lia)) as [[I1 I2]|I].
      + left. replace (S (S (m + S j))) with (S (m + j + 2)) by lia.
        assert (D := lock_stable (m + j + 2) ltac:(lia) I1 I2 (S (m + j + 2)) ltac:(lia)). exact D.
      + rewrite st_S'. unfold cs_step; cbn [cs_synced cs_sel cs_cnt].
        destruct (P (S j) Hj) as [F1 F2]. rewrite F1, F2, (Q (S j) ltac:(lia) Hj).
        rewrite Z.eqb_refl. cbn [andb orb].
        replace (S (m + S j)) with (m + j + 2)%nat by lia.
        pose proof (cnt_range (m + j + 2)).
        destruct (Z.eqb_spec (cs_cnt (st (m + j + 2))) (rc - 1)); cbn [orb].
        * left. auto.
        * right. rewrite trunc_id; [lia|]. pose proof (bits_for_ok (rc - 1) ltac:(lia)). lia. }
  cbv zeta. destruct (I (Z.to_nat rc) ltac:(lia)) as [R|R]; [exact R|].
  pose proof (cnt_range (m + Z.to_nat rc + 2)). lia.
Qed.

End Legal.
