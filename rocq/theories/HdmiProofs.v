(** Lemmas about the receiver's top level. *)
From Coq Require Import ZArith List Bool Lia Arith.
From Verif Require Import Hdl TmdsModel TmdsSpec TmdsProofs CharSyncModel CharSyncSpec CharSyncProofs
  CharSyncProps ChanSyncModel ChanSyncProofs ChanSyncProps AnalysisModel AnalysisProps HdmiModel.
Import ListNotations.
Open Scope Z_scope.

Lemma at_shift : forall (S I : Type) (step : S -> I -> S) s0 (x : nat -> I) w n,
  at_ step s0 x (w + n) = at_ step (at_ step s0 x w) (fun k => x (w + k)%nat) n.
Proof.
  intros S I step s0 x w n. induction n as [|n IH]; [rewrite Nat.add_0_r; reflexivity|].
  rewrite Nat.add_succ_r. cbn [at_]. rewrite IH. reflexivity.
Qed.

Lemma at_ext : forall (S I : Type) (step : S -> I -> S) s0 (x y : nat -> I) n,
  (forall k, (k < n)%nat -> x k = y k) -> at_ step s0 x n = at_ step s0 y n.
Proof.
  intros S I step s0 x y n. induction n as [|n IH]; intros H; [reflexivity|].
  cbn [at_]. rewrite IH by (intros; apply H; lia). rewrite H by lia. reflexivity.
Qed.

(** ** Components of the receiver *)

Section Rx.
Variable s0 : rx_st.
Variable raw : nat -> nat -> Z.
Let rx n := rx_run s0 raw n.

Lemma rx_cs_run : forall k n, (k < 3)%nat ->
  rx_cs_of (rx n) k = cs_run 8 (rx_cs_of s0 k) (fun t => raw t k) n.
Proof.
  intros k n Hk. induction n as [|n IH]; [reflexivity|].
  unfold rx, rx_run in *. cbn [at_]. unfold rx_cs_of, rx_step in *. cbn [rx_cs].
  rewrite nth_map_seq by exact Hk. unfold cs_run in *. cbn [at_]. rewrite <- IH. reflexivity.
Qed.

Lemma rx_dec_S : forall k n, (k < 3)%nat ->
  rx_dec_of (rx (S n)) k = dec_step (rx_dec_of (rx n) k) (rx_dec_in (rx n) k).
Proof.
  intros k n Hk. unfold rx, rx_run. cbn [at_]. unfold rx_dec_of, rx_step. cbn [rx_dec].
  rewrite nth_map_seq by exact Hk. reflexivity.
Qed.

Lemma rx_cy_run : forall n, rx_cy (rx n) = cy_run 3 8 (rx_cy s0) (fun t => rx_cy_in (rx t)) n.
Proof.
  intros n. induction n as [|n IH]; [reflexivity|].
  unfold cy_run in *. cbn [at_]. rewrite <- IH. reflexivity.
Qed.

Lemma rx_sp_run : forall n, rx_sp (rx n) = at_ sp_step (rx_sp s0) (fun t => rx_sp_in (rx t)) n.
Proof.
  intros n. induction n as [|n IH]; [reflexivity|]. cbn [at_]. rewrite <- IH. reflexivity.
Qed.

Lemma rx_rd_run : forall n, rx_rd (rx n) = at_ (rd_step 11) (rx_rd s0) (fun t => rx_rd_in (rx t)) n.
Proof.
  intros n. induction n as [|n IH]; [reflexivity|]. cbn [at_]. rewrite <- IH. reflexivity.
Qed.
End Rx.

(** ** One channel *)

Lemma cs_cnt_step : forall rc s x, 1 <= rc -> 0 <= cs_cnt s <= rc - 1 ->
  0 <= cs_cnt (cs_step rc s x) <= rc - 1.
Proof.
  intros rc s x Hrc H. unfold cs_step. cbn [cs_cnt].
  destruct (_ && _); [|lia]. destruct (Z.eqb_spec (cs_cnt s) (rc - 1)); [lia|].
  rewrite trunc_id; [lia|]. pose proof (bits_for_ok (rc - 1) ltac:(lia)). lia.
Qed.

Lemma cs_cnt_run : forall rc s x n, 1 <= rc -> 0 <= cs_cnt s <= rc - 1 ->
  0 <= cs_cnt (cs_run rc s x n) <= rc - 1.
Proof.
  intros rc s x n Hrc H. induction n as [|n IH]; [exact H|].
  unfold cs_run in *. cbn [at_]. apply cs_cnt_step; assumption.
Qed.

(** The decoder's answer to the word sent for character [n], from any state. *)
Lemma dec_of_word : forall i : nat -> enc_in, (forall n, enc_in_ok (i n)) -> forall n s v,
  let o := dec_step s {| di_valid := v; di_word := tx_words i (n + 3) |} in
  d_de o = ei_de (i n) /\
  (ei_de (i n) = true -> d_d o = ei_d (i n) /\ d_c o = d_c s) /\
  (ei_de (i n) = false -> d_c o = ei_c (i n)).
Proof.
  intros i Hi n s v o. unfold o, tx_words. replace (S (n + 3)) with (n + 4)%nat by lia.
  pose proof (loopback i Hi (fun _ => v) n) as Q. cbv zeta in Q.
  replace (n + 5)%nat with (S (n + 4)) in Q by lia. rewrite dec_step_at in Q.
  unfold dec_step in *. cbn [d_de d_d d_c di_word] in *.
  destruct (enc_out_legal i Hi n) as [P C].
  rewrite (dec_ctl_true_indep _ _ (d_c (dec_at (fun k => {| di_valid := v; di_word := e_out (enc_at i k) |}) (n + 4)))).
  destruct Q as (Q1 & Q2 & Q3). split; [exact Q1|]. split.
  - intros E. split; [apply Q2, E|].
    rewrite dec_ctl_find. destruct (find _ _) as [k|] eqn:F; [|reflexivity].
    exfalso. rewrite dec_ctl_find, F in Q1. cbn [fst] in Q1. congruence.
  - intros E. specialize (C E). destruct C as (c & Hc & E2). specialize (Q3 E). rewrite E2 in Q3 |- *.
    rewrite dec_ctl_find in *. destruct (proj2 (find_control _) (ex_intro _ c (conj Hc eq_refl))) as (k & F).
    rewrite F in *. exact Q3.
Qed.

(** A channel whose cable and wiring delay the bits by [L] bit times.  Before
    the first bit arrives the receiver may see anything. *)
Definition bit_delayed (W : nat -> Z) (L : nat) (x : nat -> Z) : Prop :=
  (forall n, 0 <= x n < 1024) /\
  forall t, (L <= t)%nat -> serial x t = serial W (t - L).

Lemma word_of_serial : forall x n, (forall k, 0 <= x k < 1024) -> x n = word_from (serial x) (10 * n).
Proof. intros x n H. symmetry. apply word_from_aligned, H. Qed.

Lemma bit_delayed_words : forall W L x, bit_delayed W L x ->
  forall w s, (L + s = 10 * w)%nat -> (s < 10)%nat ->
  forall n, x (w + n)%nat = misaligned W s n.
Proof.
  intros W L x [Hx H] w s E Hs n. rewrite (word_of_serial x (w + n) Hx). unfold misaligned, word_from.
  f_equal. apply map_ext. intros j. rewrite H by lia. f_equal. lia.
Qed.

(** Lock and data of one channel in the receiver's clock.  The receiver's word 0 is
    word [N] of the transmitter, but for the delay. *)
Lemma channel_words : forall (i : nat -> enc_in), (forall n, enc_in_ok (i n)) ->
  forall N L x, bit_delayed (fun n => tx_words i (N + n)%nat) L x ->
  forall st0, 0 <= cs_cnt st0 <= 7 ->
  forall a : nat, (forall j : nat, (j <= 8)%nat -> ei_de (i (N + (a + j))%nat) = false) ->
  forall n : nat, (a + 14 <= n)%nat ->
  let st := cs_run 8 st0 x (n + L / 10 + 5) in
  cs_synced st = true /\ cs_data st = tx_words i (N + (n + 3)) /\ cs_sel st = Z.of_nat (L mod 10).
Proof.
  intros i Hi N L x HL st0 Hst0 a Ha n Hn st.
  set (W := fun n => tx_words i (N + n)%nat) in *.
  assert (HW : forall n, legal_word (W n)) by (intros m; apply (tx_words_legal i Hi)).
  change (tx_words i (N + (n + 3))) with (W (n + 3)%nat).
  set (w := (if Nat.eqb (L mod 10) 0 then L / 10 else S (L / 10))%nat).
  set (s := (10 * w - L)%nat).
  assert (DM := Nat.div_mod L 10 ltac:(lia)). assert (ML := Nat.mod_upper_bound L 10 ltac:(lia)).
  assert (WS : (L + s = 10 * w)%nat /\ (s < 10)%nat /\ (s = 0 <-> L mod 10 = 0)%nat).
  { unfold s, w. destruct (Nat.eqb_spec (L mod 10) 0); lia. }
  destruct WS as (E & Hs & Z0).
  set (st1 := cs_run 8 st0 x w).
  assert (R : forall m, cs_run 8 st0 x (w + m) = cs_run 8 st1 (misaligned W s) m).
  { intros m. unfold st1, cs_run. rewrite at_shift. apply at_ext. intros k _.
    apply (bit_delayed_words _ _ _ HL w s E Hs). }
  assert (C1 : 0 <= cs_cnt st1 <= 8 - 1) by (apply cs_cnt_run; lia).
  assert (LK : forall t, (a + 14 <= t)%nat ->
            cs_synced (cs_run 8 st1 (misaligned W s) t) = true /\
            cs_sel (cs_run 8 st1 (misaligned W s) t) = (10 - Z.of_nat s) mod 10).
  { intros t Ht. apply (C07_lock_acquired _ HW 8 ltac:(lia) s Hs st1 C1 (a + 3)); try lia.
    intros j Hj. unfold W, tx_words. replace (S (N + (a + 3 + j))) with (N + (a + j) + 4)%nat by lia.
    apply enc_out_legal; [exact Hi|]. apply Ha. lia. }
  assert (SEL : (10 - Z.of_nat s) mod 10 = Z.of_nat (L mod 10)).
  { unfold s, w. destruct (Nat.eqb_spec (L mod 10) 0) as [Z|Z].
    - replace (10 * (L / 10) - L)%nat with 0%nat by lia. rewrite Z. reflexivity.
    - replace (10 - Z.of_nat (10 * S (L / 10) - L)) with (Z.of_nat (L mod 10)) by lia. apply Z.mod_small. lia. }
  unfold st.
  destruct (Nat.eqb_spec (L mod 10) 0) as [Z|Z].
  - (* aligned *)
    replace (n + L / 10 + 5)%nat with (w + S (n + 4))%nat by (unfold w; destruct (Nat.eqb_spec (L mod 10) 0); lia).
    rewrite R. split; [apply LK; lia|]. split; [|rewrite <- SEL; apply LK; lia].
    destruct (LK (n + 4)%nat ltac:(lia)) as [A B].
    destruct (C08_lock_stable _ HW 8 ltac:(lia) s Hs st1 (n + 4) ltac:(lia) A B (n + 4) ltac:(lia)) as (_ & _ & D).
    rewrite D. destruct (Nat.eqb_spec s 0); [|lia]. f_equal. lia.
  - replace (n + L / 10 + 5)%nat with (w + S (n + 3))%nat
      by (unfold w; destruct (Nat.eqb_spec (L mod 10) 0); lia).
    rewrite R. split; [apply LK; lia|]. split; [|rewrite <- SEL; apply LK; lia].
    destruct (LK (n + 3)%nat ltac:(lia)) as [A B].
    destruct (C08_lock_stable _ HW 8 ltac:(lia) s Hs st1 (n + 3) ltac:(lia) A B (n + 3) ltac:(lia)) as (_ & _ & D).
    rewrite D. destruct (Nat.eqb_spec s 0); [lia|]. reflexivity.
Qed.

(** ** Three channels *)

Definition px_ok (p : px) : Prop := 0 <= px_r p < 256 /\ 0 <= px_g p < 256 /\ 0 <= px_b p < 256.

Lemma phy_char_ok : forall k p, px_ok p -> enc_in_ok (phy_char k p).
Proof.
  intros k p (R & G & B). destruct k as [|[|k]]; split; cbn; try lia.
  destruct (px_hs p), (px_vs p); cbn; lia.
Qed.

Lemma phy_char_de : forall k p, ei_de (phy_char k p) = px_de p.
Proof. intros [|[|k]] p; reflexivity. Qed.

(** States of the receiver hardware: the lock counter is in its range, the
    buffer pointers are in range and the memories have eight places. *)
Definition rx_ok (s : rx_st) : Prop :=
  forall k, (k < 3)%nat -> 0 <= cs_cnt (rx_cs_of s k) <= 7 /\ well_formed 8 (cy_buf (rx_cy s) k).

(** The receiver starts when the transmitter, which sends the pixels [P], is at
    clock [N]. *)
Section Link.
Open Scope nat_scope.
Variable P : nat -> px.
Hypothesis HP : forall n, px_ok (P n).
Variable N : nat.
Let p n := P (N + n).
Variable L : nat -> nat.
Variable Lmin : nat.
Hypothesis HL : forall k, k < 3 -> Lmin <= L k <= Lmin + 70.
Variable raw : nat -> nat -> Z.
Hypothesis Hraw : forall k, k < 3 -> bit_delayed (fun n => tx_word P k (N + n)) (L k) (fun t => raw t k).
Variable s0 : rx_st.
Hypothesis Hs0 : rx_ok s0.
Variables a b1 b2 : nat.
Hypothesis H1 : a + 30 <= b1.
Hypothesis H2 : b1 + 24 <= b2.
Hypothesis Blank1 : forall n, a <= n < b1 -> px_de (p n) = false.
Hypothesis Active : forall n, b1 <= n < b2 -> px_de (p n) = true.
Hypothesis Blank2 : forall n, b2 <= n < b2 + 24 -> px_de (p n) = false.
Let rx n := rx_run s0 raw n.
Let ch k n := phy_char k (p n).
Let chP k n := phy_char k (P n).

Lemma link_cs : forall k n, k < 3 -> a + 14 <= n ->
  rx_dec_in (rx (n + L k / 10 + 5)) k =
  {| di_valid := true; di_word := tx_words (chP k) (N + (n + 3)) |}.
Proof.
  intros k n Hk Hn. unfold rx_dec_in, rx. rewrite rx_cs_run by exact Hk.
  destruct (channel_words (chP k) (fun n => phy_char_ok k (P n) (HP n)) N (L k) (fun t => raw t k)
              (Hraw k Hk) (rx_cs_of s0 k) (proj1 (Hs0 k Hk)) a) with (n := n) as (A & B & _).
  - intros j Hj. unfold chP. rewrite phy_char_de. apply Blank1. lia.
  - exact Hn.
  - rewrite A, B. reflexivity.
Qed.

Lemma link_sel : forall k n, k < 3 -> a + 14 <= n ->
  let c := rx_cs_of (rx (n + L k / 10 + 5)) k in cs_synced c = true /\ cs_sel c = Z.of_nat (L k mod 10).
Proof.
  intros k n Hk Hn c. unfold c, rx. rewrite rx_cs_run by exact Hk.
  destruct (channel_words (chP k) (fun n => phy_char_ok k (P n) (HP n)) N (L k) (fun t => raw t k)
              (Hraw k Hk) (rx_cs_of s0 k) (proj1 (Hs0 k Hk)) a) with (n := n) as (A & _ & B).
  - intros j Hj. unfold chP. rewrite phy_char_de. apply Blank1. lia.
  - exact Hn.
  - split; assumption.
Qed.

Lemma link_dec : forall k n, k < 3 -> a + 14 <= n ->
  let o := rx_dec_of (rx (n + L k / 10 + 6)) k in
  d_valid o = true /\ d_de o = px_de (p n) /\
  (px_de (p n) = true -> d_d o = ei_d (ch k n) /\ d_c o = d_c (rx_dec_of (rx (n + L k / 10 + 5)) k)) /\
  (px_de (p n) = false -> d_c o = ei_c (ch k n)).
Proof.
  intros k n Hk Hn o. unfold o.
  replace (n + L k / 10 + 6) with (S (n + L k / 10 + 5)) by lia.
  unfold rx. rewrite rx_dec_S by exact Hk. fold (rx (n + L k / 10 + 5)).
  rewrite link_cs by assumption. rewrite Nat.add_assoc.
  destruct (dec_of_word (chP k) (fun n => phy_char_ok k (P n) (HP n)) (N + n)
             (rx_dec_of (rx (n + L k / 10 + 5)) k) true) as (A & B & C).
  unfold chP in A, B, C. rewrite phy_char_de in A, B, C.
  split; [reflexivity|]. split; [exact A|]. split; assumption.
Qed.

Let C0 := a + 14 + Lmin / 10 + 6.
Let skew k := L k / 10 - Lmin / 10.
Let inp t := rx_cy_in (rx (C0 + t)).
Let X k t := cyi_data (inp (t + skew k)) k.
Let e t := px_de (p (a + 14 + t)).

Lemma skew_ok : forall k, k < 3 -> Lmin / 10 <= L k / 10 /\ skew k <= 7.
Proof.
  intros k Hk. unfold skew. specialize (HL k Hk).
  assert (Lmin / 10 <= L k / 10) by (apply Nat.div_le_mono; lia).
  assert (L k / 10 <= (Lmin + 7 * 10) / 10) by (apply Nat.div_le_mono; lia).
  rewrite Nat.div_add in H0 by lia. lia.
Qed.

Lemma X_dec : forall k t, k < 3 -> X k t = dec_chan (rx_dec_of (rx (a + 14 + t + L k / 10 + 6)) k).
Proof.
  intros k t Hk. unfold X, inp, rx_cy_in. cbn [cyi_data]. do 3 f_equal.
  destruct (skew_ok k Hk). unfold C0, skew. lia.
Qed.

Lemma link_carries : carries inp 3 skew X e.
Proof.
  split; [reflexivity|]. intros k t Hk. rewrite X_dec by exact Hk. cbn [ch_de dec_chan].
  apply link_dec; [exact Hk|lia].
Qed.

Lemma link_valid : forall t, 7 <= t -> cyi_valid (inp t) = true.
Proof.
  intros t Ht. unfold inp, rx_cy_in. cbn [cyi_valid].
  assert (V : forall k, k < 3 -> d_valid (rx_dec_of (rx (C0 + t)) k) = true).
  { intros k Hk. destruct (skew_ok k Hk).
    replace (C0 + t) with ((a + 14 + t - skew k) + L k / 10 + 6) by (unfold C0, skew in *; lia).
    apply link_dec; [exact Hk|lia]. }
  rewrite !V by lia. reflexivity.
Qed.

(** Words shown by the channel synchroniser. *)
Lemma link_shown : exists D, (forall k, k < 3 -> L k / 10 + 6 < D <= L k / 10 + 14) /\
  forall n, b2 + 16 <= n ->
  cy_synced (rx_cy (rx (n + D))) = true /\
  forall k, k < 3 -> cy_out (rx_cy (rx (n + D))) k = dec_chan (rx_dec_of (rx (n + L k / 10 + 6)) k).
Proof.
  assert (W : forall k, k < 3 -> well_formed 8 (cy_buf (rx_cy (rx C0)) k)).
  { intros k Hk. unfold rx. rewrite rx_cy_run.
    apply (wf_all 3 8 ltac:(lia) (rx_cy s0)); [|exact Hk]. intros j Hj. apply (proj2 (Hs0 j Hj)). }
  destruct (C11_skew_removed 3 8 ltac:(lia) ltac:(lia) (rx_cy (rx C0)) W inp skew X e link_carries 0)
    with (b0 := 0) (b1 := b1 - (a + 14)) (b2 := b2 - (a + 14)) as (T & HT & Q); try lia.
  - intros k Hk. destruct (skew_ok k Hk). lia.
  - intros t Ht. unfold e. apply Blank1. lia.
  - intros t Ht. unfold e. apply Active. lia.
  - unfold e. apply Blank2. lia.
  - assert (R : forall m, rx_cy (rx (C0 + m)) = cy_run 3 8 (rx_cy (rx C0)) inp m).
    { intros m. unfold rx. rewrite !rx_cy_run. unfold cy_run. rewrite at_shift. reflexivity. }
    pose proof (HT 0 ltac:(lia)) as HT0. destruct (skew_ok 0 ltac:(lia)).
    exists (Lmin / 10 + 6 + T). split.
    { intros k Hk. specialize (HT k Hk). destruct (skew_ok k Hk). unfold skew in *. lia. }
    intros n Hn. set (m := n + T - (a + 14)).
    replace (n + (Lmin / 10 + 6 + T)) with (C0 + m) by (unfold C0, m; lia). rewrite R.
    destruct (Q m ltac:(unfold m; lia)) as [Sh Sy]. split.
    + apply (Sy (b2 - (a + 14) + 16)).
      * unfold m. lia.
      * unfold e. apply Blank2. unfold skew in *. lia.
      * intros j Hj. apply link_valid. lia.
    + intros k Hk. specialize (Sh k Hk). unfold shown in Sh. rewrite Sh, X_dec by exact Hk.
      do 3 f_equal. unfold m. lia.
Qed.

Lemma link_c0 : forall (hs vs : nat -> bool) ph pv,
  (forall n, px_hs (p n) = xorb (hs n) ph /\ px_vs (p n) = xorb (vs n) pv) ->
  (forall n m, px_de (p n) = true -> n <= m + 1 -> m <= n + 1 -> hs m = false /\ vs m = false) ->
  forall n, b2 <= n ->
  let c := d_c (rx_dec_of (rx (n + L 0 / 10 + 6)) 0) in
  (bit c 0, bit c 1) = (xorb (hs n) ph, xorb (vs n) pv).
Proof.
  intros hs vs ph pv Hpol Hin n Hn. cbv zeta.
  induction Hn as [|n Hn IH].
  - destruct (link_dec 0 b2 ltac:(lia) ltac:(lia)) as (_ & _ & _ & C).
    rewrite C by (apply Blank2; lia). destruct (Hpol b2) as [<- <-]. cbn.
    destruct (px_hs (p b2)), (px_vs (p b2)); reflexivity.
  - destruct (link_dec 0 (S n) ltac:(lia) ltac:(lia)) as (_ & _ & B & C).
    destruct (px_de (p (S n))) eqn:E.
    + destruct (B eq_refl) as [_ ->]. replace (S n + L 0 / 10 + 5) with (n + L 0 / 10 + 6) by lia.
      rewrite IH. destruct (Hin (S n) n E ltac:(lia) ltac:(lia)) as [-> ->].
      destruct (Hin (S n) (S n) E ltac:(lia) ltac:(lia)) as [-> ->]. reflexivity.
    + rewrite C by reflexivity. destruct (Hpol (S n)) as [<- <-]. cbn.
      destruct (px_hs (p (S n))), (px_vs (p (S n))); reflexivity.
Qed.

(** The whole link, up to the outputs of the sync polarity stage. *)
Lemma link_joined : exists D, (forall k, k < 3 -> L k / 10 + 7 < D <= L k / 10 + 15) /\
  (forall n, b2 + 16 <= n ->
     let o := rx_sp (rx (n + D)) in
     sp_valid o = true /\ sp_de o = px_de (p n) /\
     (px_de (p n) = true -> sp_r o = px_r (p n) /\ sp_g o = px_g (p n) /\ sp_b o = px_b (p n))) /\
  (forall (hs vs : nat -> bool) ph pv,
     (forall n, px_hs (p n) = xorb (hs n) ph /\ px_vs (p n) = xorb (vs n) pv) ->
     (forall n m, px_de (p n) = true -> n <= m + 1 -> m <= n + 1 -> hs m = false /\ vs m = false) ->
     forall f, b2 + 16 <= f -> px_de (p f) = true -> px_de (p (S f)) = false ->
     forall n, S f <= n ->
     let o := rx_sp (rx (n + D)) in sp_hsync o = hs n /\ sp_vsync o = vs n).
Proof.
  destruct link_shown as (D & HD & Sh). exists (S D). split; [intros k Hk; specialize (HD k Hk); lia|].
  assert (ST : forall n, b2 + 16 <= n -> rx_sp (rx (n + S D)) = sp_step (rx_sp (rx (n + D))) (rx_sp_in (rx (n + D)))).
  { intros n Hn. rewrite Nat.add_succ_r. reflexivity. }
  assert (DE : forall n, b2 + 16 <= n -> spi_de (rx_sp_in (rx (n + D))) = px_de (p n)).
  { intros n Hn. unfold rx_sp_in. cbn [spi_de]. destruct (Sh n Hn) as [_ O]. rewrite O by lia.
    cbn [ch_de dec_chan]. apply link_dec; lia. }
  split.
  - intros n Hn o. unfold o. rewrite ST by exact Hn.
    destruct (Sh n Hn) as [V O].
    unfold sp_step. destruct (spi_d (rx_sp_in (rx (n + D)))) as [[d0 d1] d2] eqn:ED.
    cbn [sp_valid sp_de sp_r sp_g sp_b]. split; [exact V|]. split; [apply DE, Hn|].
    intros E. unfold rx_sp_in in ED. cbn [spi_d] in ED.
    rewrite !O in ED by lia. cbn [ch_d dec_chan] in ED.
    destruct (link_dec 0 n ltac:(lia) ltac:(lia)) as (_ & _ & B0 & _).
    destruct (link_dec 1 n ltac:(lia) ltac:(lia)) as (_ & _ & B1 & _).
    destruct (link_dec 2 n ltac:(lia) ltac:(lia)) as (_ & _ & B2 & _).
    destruct (B0 E) as [X0 _], (B1 E) as [X1 _], (B2 E) as [X2 _].
    rewrite X0, X1, X2 in ED. injection ED as <- <- <-. repeat split.
  - intros hs vs ph pv Hpol Hin f Hf F1 F0 n Hn o.
    set (i t := rx_sp_in (rx (b2 + 16 + D + t))).
    assert (RS : forall m, rx_sp (rx (b2 + 16 + D + m)) = at_ sp_step (rx_sp (rx (b2 + 16 + D))) i m).
    { intros m. unfold rx. rewrite !rx_sp_run. rewrite at_shift. reflexivity. }
    assert (DEi : forall t, spi_de (i t) = px_de (p (b2 + 16 + t))).
    { intros t. unfold i. rewrite <- DE by lia. do 3 f_equal. lia. }
    destruct (C18_sync_polarity (rx_sp (rx (b2 + 16 + D))) i (fun t => hs (b2 + 16 + t)) (fun t => vs (b2 + 16 + t)) ph pv)
      with (t0 := f - (b2 + 16)) (n := n - (b2 + 16)) as (A & B & _); try lia.
    + intros t. unfold i. replace (b2 + 16 + D + t) with (b2 + 16 + t + D) by lia.
      unfold rx_sp_in. cbn [spi_c]. destruct (Sh (b2 + 16 + t) ltac:(lia)) as [_ O]. rewrite O by lia.
      cbn [ch_c dec_chan]. apply (link_c0 hs vs ph pv Hpol Hin); lia.
    + intros t E _. rewrite DEi in E. apply (Hin (b2 + 16 + t)); [exact E|lia|lia].
    + rewrite DEi. replace (b2 + 16 + (f - (b2 + 16))) with f by lia. exact F1.
    + rewrite DEi. replace (b2 + 16 + S (f - (b2 + 16))) with (S f) by lia. exact F0.
    + rewrite <- RS in A, B. unfold o.
      replace (b2 + 16 + D + S (n - (b2 + 16))) with (n + S D) in A, B by lia.
      replace (b2 + 16 + (n - (b2 + 16))) with n in A, B by lia. split; assumption.
Qed.

End Link.

(** Both start together. *)
Lemma link_end_to_end : (forall p : nat -> px, (forall n, px_ok (p n)) ->
  forall L Lmin, (forall k, k < 3 -> Lmin <= L k <= Lmin + 70) ->
  forall raw, (forall k, k < 3 -> bit_delayed (tx_word p k) (L k) (fun t => raw t k)) -> forall s0, rx_ok s0 ->
  forall a b1 b2, a + 30 <= b1 -> b1 + 24 <= b2 ->
  (forall n, a <= n < b1 -> px_de (p n) = false) ->
  (forall n, b1 <= n < b2 -> px_de (p n) = true) ->
  (forall n, b2 <= n < b2 + 24 -> px_de (p n) = false) ->
  exists D, (forall k, k < 3 -> L k / 10 + 7 < D <= L k / 10 + 15) /\
  (forall n, b2 + 16 <= n ->
     let o := rx_sp (rx_run s0 raw (n + D)) in
     sp_valid o = true /\ sp_de o = px_de (p n) /\
     (px_de (p n) = true -> sp_r o = px_r (p n) /\ sp_g o = px_g (p n) /\ sp_b o = px_b (p n))) /\
  (forall (hs vs : nat -> bool) ph pv,
     (forall n, px_hs (p n) = xorb (hs n) ph /\ px_vs (p n) = xorb (vs n) pv) ->
     (forall n m, px_de (p n) = true -> n <= m + 1 -> m <= n + 1 -> hs m = false /\ vs m = false) ->
     forall f, b2 + 16 <= f -> px_de (p f) = true -> px_de (p (S f)) = false ->
     forall n, S f <= n ->
     let o := rx_sp (rx_run s0 raw (n + D)) in sp_hsync o = hs n /\ sp_vsync o = vs n))%nat.
Proof. intros p Hp. exact (link_joined p Hp 0). Qed.
