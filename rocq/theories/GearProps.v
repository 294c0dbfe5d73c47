(** C86: the Series 7 receive gearbox. *)
From Coq Require Import ZArith List Bool Lia Arith.
From Verif Require Import Hdl Trace SerialModel SerialProps CharSyncSpec CharSyncProofs GearModel.
Import ListNotations.
Open Scope nat_scope.

Lemma upd_length : forall k v l, k < length l -> length (gb_upd k v l) = length l.
Proof. intros k v l H. unfold gb_upd. rewrite app_length, firstn_length. cbn [length]. rewrite skipn_length. lia. Qed.
Lemma upd_nth : forall k v l j, k < length l -> nth j (gb_upd k v l) 0%Z = if j =? k then v else nth j l 0%Z.
Proof.
  intros k v l j H. unfold gb_upd. assert (F : length (firstn k l) = k) by (rewrite firstn_length; lia).
  destruct (Nat.eqb_spec j k) as [->|N].
  - rewrite app_nth2, F, Nat.sub_diag by lia. reflexivity.
  - destruct (Nat.lt_ge_cases j k) as [L|L].
    + rewrite app_nth1 by lia. rewrite <- (firstn_skipn k l) at 2. rewrite app_nth1 by lia. reflexivity.
    + rewrite app_nth2, F by lia. destruct (j - k) as [|d] eqn:E; [lia|]. cbn [nth].
      rewrite <- (firstn_skipn (S k) l) at 2. rewrite app_nth2; rewrite firstn_length; [|lia]. f_equal. lia.
Qed.

Section Gear.
Variables iw ow wc rc : nat.
Hypothesis Hiw : 1 <= iw.
Hypothesis How : 1 <= ow.
Hypothesis Hwc : 2 <= wc.
Hypothesis Hrc : 1 <= rc.
Hypothesis Hsize : iw * wc = ow * rc.
Variable i : nat -> gb_in.
Let st := gb_run iw ow wc rc i.
Let W t := occurrences (fun x => gbi_w (i x)) 0 t.
Let R t := occurrences (fun x => gbi_r (i x)) 0 t.
Let words t := collect (fun x => if gbi_w (i x) then Some (trunc (Z.of_nat iw) (gbi_i (i x))) else None) 0 t.

Lemma gb_words_length : forall t, length (words t) = W t.
Proof.
  induction t as [|t IH]; [reflexivity|]. unfold words, W in *. cbn [collect occurrences]. rewrite app_length, IH, Nat.add_0_l.
  destruct (gbi_w (i t)); reflexivity.
Qed.

Lemma gb_ptr : forall t, gb_wp (st t) = (wc / 2 + W t) mod wc /\ gb_rp (st t) = R t mod rc /\ length (gb_mem (st t)) = wc.
Proof.
  induction t as [|t (I1 & I2 & I3)].
  - change (st 0) with (gb_init wc). change (W 0) with 0. change (R 0) with 0. unfold gb_init. cbn [gb_wp gb_rp gb_mem].
    rewrite Nat.add_0_r, repeat_length. rewrite Nat.mod_small by (apply Nat.div_lt; lia). rewrite Nat.mod_0_l by lia. auto.
  - change (st (S t)) with (gb_step iw ow wc rc (st t) (i t)). unfold gb_step. cbn [gb_wp gb_rp gb_mem].
    assert (WR : forall n a, 1 <= n -> (if a mod n =? n - 1 then 0 else S (a mod n)) = (a + 1) mod n).
    { clear. intros n a N. pose proof (Nat.div_mod a n ltac:(lia)) as D. pose proof (Nat.mod_upper_bound a n ltac:(lia)) as B. rewrite (Nat.mul_comm n) in D.
      destruct (Nat.eqb_spec (a mod n) (n - 1)) as [E|E].
      - replace (a + 1) with (0 + (a / n + 1) * n) by lia. rewrite Nat.mod_add by lia. rewrite Nat.mod_0_l by lia. reflexivity.
      - replace (a + 1) with (a mod n + 1 + a / n * n) by lia. rewrite Nat.mod_add by lia. rewrite (Nat.mod_small (a mod n + 1)) by lia. lia. }
    unfold W, R in *. cbn [occurrences]. rewrite !Nat.add_0_l. rewrite I1, I2. split; [|split].
    + destruct (gbi_w (i t)); [rewrite WR by lia; f_equal; lia|]. rewrite Nat.add_0_r. reflexivity.
    + destruct (gbi_r (i t)); [apply WR; lia|]. rewrite Nat.add_0_r. reflexivity.
    + destruct (gbi_w (i t)); [|exact I3]. rewrite upd_length; [exact I3|]. rewrite I3. apply Nat.mod_upper_bound. lia.
Qed.

(** Chunk number [n] of the input is in the storage until it is overwritten. *)
Lemma gb_holds : forall t n, n < W t -> W t <= n + wc ->
  nth ((wc / 2 + n) mod wc) (gb_mem (st t)) 0%Z = nth n (words t) 0%Z.
Proof.
  induction t as [|t IH]; intros n N L; [cbn in N; lia|].
  destruct (gb_ptr t) as (P1 & _ & P3).
  change (st (S t)) with (gb_step iw ow wc rc (st t) (i t)). unfold gb_step. cbn [gb_mem].
  assert (WS : W (S t) = W t + (if gbi_w (i t) then 1 else 0)) by reflexivity. rewrite WS in N, L.
  assert (DS : words (S t) = words t ++ (if gbi_w (i t) then [trunc (Z.of_nat iw) (gbi_i (i t))] else [])).
  { unfold words. cbn [collect]. rewrite Nat.add_0_l. destruct (gbi_w (i t)); reflexivity. }
  rewrite DS. pose proof (gb_words_length t) as LW.
  destruct (gbi_w (i t)).
  - rewrite upd_nth by (rewrite P3, P1; apply Nat.mod_upper_bound; lia). rewrite P1.
    destruct (Nat.eq_dec n (W t)) as [->|NE].
    + rewrite Nat.eqb_refl. rewrite app_nth2 by lia. rewrite LW, Nat.sub_diag. reflexivity.
    + destruct (Nat.eqb_spec ((wc / 2 + n) mod wc) ((wc / 2 + W t) mod wc)) as [E|E].
      * exfalso. set (a := wc / 2 + n) in *. set (b := wc / 2 + W t) in *.
        pose proof (Nat.div_mod a wc ltac:(lia)). pose proof (Nat.div_mod b wc ltac:(lia)).
        assert (a < b < a + wc) by (unfold a, b; lia).
        assert (a / wc < b / wc) by (apply (Nat.mul_lt_mono_pos_l wc); lia).
        assert (wc * (a / wc + 1) <= wc * (b / wc)) by (apply Nat.mul_le_mono_l; lia). lia.
      * rewrite app_nth1 by lia. apply IH; lia.
  - rewrite app_nil_r. apply IH; lia.
Qed.

(** Bit [k] of the input stream. *)
Let ibit (ws : list Z) (k : nat) : bool := Z.testbit (nth (k / iw) ws 0%Z) (Z.of_nat (k mod iw)).

Lemma gb_read : forall t, gbi_r (i t) = true ->
  iw * (wc / 2) <= ow * R t -> ow * (R t + 1) <= iw * (wc / 2) + iw * W t -> iw * (wc / 2) + iw * W t <= ow * R t + iw * wc ->
  gb_o (st (S t)) = of_bits (map (fun j => ibit (words t) (ow * R t - iw * (wc / 2) + j)) (seq 0 ow)).
Proof.
  intros t HR A B C. change (st (S t)) with (gb_step iw ow wc rc (st t) (i t)). unfold gb_step. cbn [gb_o]. rewrite HR.
  f_equal. apply map_ext_in. intros j Hj. apply in_seq in Hj. destruct (gb_ptr t) as (_ & P2 & _). rewrite P2.
  unfold gb_bit, ibit. set (h := wc / 2) in *. set (k := ow * R t - iw * h + j).
  pose proof (Nat.div_mod k iw ltac:(lia)) as D. pose proof (Nat.mod_upper_bound k iw ltac:(lia)) as M.
  set (n := k / iw) in *. set (r := k mod iw) in *.
  (* position modulo the size *)
  set (a := ow * (R t mod rc) + j).
  assert (EA : a + (R t / rc) * (iw * wc) = iw * (h + n) + r).
  { pose proof (Nat.div_mod (R t) rc ltac:(lia)) as DR. unfold a. rewrite Hsize.
    assert (ow * R t = ow * (R t mod rc) + R t / rc * (ow * rc)) by (rewrite DR at 1; ring).
    unfold k in D. lia. }
  assert (AL : a < iw * wc).
  { unfold a. pose proof (Nat.mod_upper_bound (R t) rc ltac:(lia)). rewrite Hsize.
    assert (ow * (R t mod rc + 1) <= ow * rc) by (apply Nat.mul_le_mono_l; lia). lia. }
  assert (DA : a / iw = (h + n) mod wc /\ a mod iw = r).
  { pose proof (Nat.div_mod (h + n) wc ltac:(lia)) as DH. pose proof (Nat.mod_upper_bound (h + n) wc ltac:(lia)) as MH.
    set (c := (h + n) mod wc) in *. set (q := (h + n) / wc) in *.
    assert (EQ : a + (R t / rc) * (iw * wc) = iw * c + r + q * (iw * wc)) by (rewrite EA, DH; ring).
    assert (CL : iw * c + r < iw * wc).
    { assert (iw * (c + 1) <= iw * wc) by (apply Nat.mul_le_mono_l; lia). lia. }
    assert (q = R t / rc).
    { assert (X : forall x y u v s, x < s -> y < s -> x + u * s = y + v * s -> u <= v).
      { intros x y u v s X1 X2 X3. destruct (Nat.le_gt_cases u v) as [|G]; [assumption|].
        assert ((v + 1) * s <= u * s) by (apply Nat.mul_le_mono_r; lia). lia. }
      pose proof (X _ _ _ _ _ AL CL EQ). pose proof (X _ _ _ _ _ CL AL (eq_sym EQ)). lia. }
    assert (EC : a = c * iw + r) by lia.
    rewrite EC. split; [rewrite Nat.add_comm, Nat.div_add, Nat.div_small by lia; lia|].
    rewrite Nat.add_comm, Nat.mod_add, Nat.mod_small by lia. reflexivity. }
  destruct DA as [-> ->]. f_equal. unfold h. apply gb_holds.
  - apply (Nat.mul_lt_mono_pos_l iw); [lia|]. unfold k in D. lia.
  - apply Nat.lt_succ_r. apply (Nat.mul_lt_mono_pos_l iw); [lia|]. unfold k in D. rewrite Nat.mul_succ_r, Nat.mul_add_distr_l. lia.
Qed.
End Gear.

(** * The Series 7 receive path *)

(** The eight bits the deserialiser makes of the line, the oldest first. *)
Definition group8 (line : nat -> bool) (n : nat) : Z := of_bits (map (fun j => line (8 * n + j)) (seq 0 8)).
(** The deserialiser delivers one group after the other at the edges of the write clock. *)
Definition deserialised (line : nat -> bool) (i : nat -> gb_in) : Prop :=
  forall t, gbi_w (i t) = true -> gbi_i (i t) = group8 line (occurrences (fun x => gbi_w (i x)) 0 t).

Lemma s7_group_bit : forall inv line n j, j < 8 ->
  Z.testbit (trunc 8 (s7_mdata inv (group8 line n))) (Z.of_nat j) = xorb inv (line (8 * n + j)).
Proof.
  intros inv line n j H. unfold trunc. rewrite Z.mod_pow2_bits_low by lia.
  assert (T : Z.testbit (group8 line n) (Z.of_nat j) = line (8 * n + j)).
  { unfold group8. rewrite testbit_of_bits. apply (nth_map_seq _ (fun j => line (8 * n + j))). exact H. }
  unfold s7_mdata, trunc. destruct inv; rewrite Z.mod_pow2_bits_low by lia.
  - rewrite Z.lnot_spec by lia. rewrite T. destruct (line _); reflexivity.
  - rewrite T. destruct (line _); reflexivity.
Qed.

Lemma cap7_words : forall line inv i, deserialised line i -> forall t n, n < occurrences (fun x => gbi_w (i x)) 0 t ->
  nth n (collect (fun x => if gbi_w (cap7_in inv (i x)) then Some (trunc (Z.of_nat 8) (gbi_i (cap7_in inv (i x)))) else None) 0 t) 0%Z =
  trunc 8 (s7_mdata inv (group8 line n)).
Proof.
  intros line inv i D t. induction t as [|t IH]; intros n N; [cbn in N; lia|].
  cbn [collect occurrences] in *. rewrite Nat.add_0_l in *.
  assert (L : length (collect (fun x => if gbi_w (cap7_in inv (i x)) then Some (trunc (Z.of_nat 8) (gbi_i (cap7_in inv (i x)))) else None) 0 t) =
    occurrences (fun x => gbi_w (i x)) 0 t).
  { exact (gb_words_length 8 (fun x => cap7_in inv (i x)) t). }
  destruct (Nat.lt_ge_cases n (occurrences (fun x => gbi_w (i x)) 0 t)) as [B|B].
  - rewrite app_nth1 by lia. apply IH. exact B.
  - cbn [cap7_in gbi_w gbi_i] in *. specialize (D t). destruct (gbi_w (i t)); [|lia]. rewrite app_nth2 by lia. rewrite L.
    replace (n - _) with 0 by lia. cbn [nth]. rewrite D by reflexivity. replace n with (occurrences (fun x => gbi_w (i x)) 0 t) by lia. reflexivity.
Qed.

(** Whatever the two clocks do, a word read while the writer is neither late nor a whole buffer ahead holds ten
    successive bits of the line: word [r] holds the bits from [10 (r - 4)] on.  Nothing that the word is made of is
    being written at that instant. *)
Theorem C86_window : forall line inv i, deserialised line i -> forall t, gbi_r (i t) = true ->
  let r := occurrences (fun x => gbi_r (i x)) 0 t in
  let w := occurrences (fun x => gbi_w (i x)) 0 in
  4 <= r -> 10 * r <= 8 * w t + 30 -> 8 * w (S t) <= 10 * r + 40 ->
  to_bits 10 (gb_o (cap7_run inv i (S t))) = map (fun j => xorb inv (line (10 * (r - 4) + j))) (seq 0 10).
Proof.
  intros line inv i D t HR r w A B C.
  assert (WS : w t <= w (S t)) by (unfold w; cbn [occurrences]; lia).
  pose proof (gb_read 8 10 10 8 ltac:(lia) ltac:(lia) ltac:(lia) ltac:(lia) eq_refl (fun x => cap7_in inv (i x)) t HR) as G.
  cbv zeta beta in G. change (10 / 2) with 5 in G.
  change (occurrences (fun x => gbi_r (cap7_in inv (i x))) 0 t) with r in G.
  change (occurrences (fun x => gbi_w (cap7_in inv (i x))) 0 t) with (w t) in G.
  specialize (G ltac:(lia) ltac:(lia) ltac:(lia)).
  unfold cap7_run. rewrite G. rewrite to_of_bits10 by (rewrite map_length, seq_length; reflexivity).
  apply map_ext_in. intros j Hj. apply in_seq in Hj.
  replace (10 * (r - 4) + j) with (10 * r - 8 * 5 + j) by lia. set (k := 10 * r - 8 * 5 + j).
  pose proof (Nat.div_mod k 8 ltac:(lia)) as E. pose proof (Nat.mod_upper_bound k 8 ltac:(lia)) as U.
  rewrite (cap7_words line inv i D t (k / 8)).
  - rewrite s7_group_bit by exact U. rewrite <- E. reflexivity.
  - fold (w t). unfold k in *. lia.
Qed.

(** * Clocks from one source *)

(** Edges of a clock that starts at instant [a] and has period [q]. *)
Definition clocked (a q t : nat) : bool := (a <=? t) && ((t - a) mod q =? 0).

Lemma clocked_count : forall a q, 1 <= q -> forall t, occurrences (clocked a q) 0 t = (t - a + (q - 1)) / q.
Proof.
  intros a q Q. induction t as [|t IH].
  - cbn [occurrences]. rewrite Nat.sub_0_l, Nat.add_0_l. symmetry. apply Nat.div_small. lia.
  - cbn [occurrences]. rewrite IH, Nat.add_0_l. unfold clocked. destruct (Nat.leb_spec a t) as [L|L]; cbn [andb].
    + replace (S t - a + (q - 1)) with (t - a + q) by lia. set (x := t - a). replace (x + q) with (x + 1 * q) by lia. rewrite Nat.div_add by lia.
      pose proof (Nat.div_mod x q ltac:(lia)) as D. pose proof (Nat.mod_upper_bound x q ltac:(lia)) as U.
      destruct (Nat.eqb_spec (x mod q) 0) as [E|E].
      * f_equal. symmetry. apply (Nat.div_unique _ q (x / q) (q - 1)); lia.
      * rewrite Nat.add_0_r. symmetry. apply (Nat.div_unique _ q (x / q + 1) (x mod q - 1)); lia.
    + rewrite Nat.add_0_r. f_equal. lia.
Qed.

Lemma clocked_edge : forall b q n, 1 <= q -> clocked b q (b + q * n) = true.
Proof.
  intros b q n Q. unfold clocked. rewrite (proj2 (Nat.leb_le _ _)) by lia. replace (b + q * n - b) with (n * q) by lia.
  rewrite Nat.mod_mul by lia. reflexivity.
Qed.
Lemma clocked_before : forall b q n, 1 <= q -> occurrences (clocked b q) 0 (b + q * n) = n.
Proof.
  intros b q n Q. rewrite clocked_count by exact Q. symmetry. apply (Nat.div_unique _ q n (q - 1)); lia.
Qed.
Lemma clocked_locked : forall m a b n, 1 <= m -> a <= b + 15 * m -> b <= a + 16 * m -> 4 <= n ->
  let w := occurrences (clocked a (4 * m)) 0 in
  10 * n <= 8 * w (b + 5 * m * n) + 30 /\ 8 * w (S (b + 5 * m * n)) <= 10 * n + 40.
Proof.
  intros m a b n M A B N w. unfold w. rewrite !clocked_count by lia.
  set (t := b + 5 * m * n).
  assert (F : 5 * m * 4 <= 5 * m * n) by (apply Nat.mul_le_mono_l; exact N).
  assert (L : a <= t) by (unfold t; lia).
  assert (K : 2 * (b + 5 * m * n) = 2 * b + m * (10 * n)) by ring.
  split.
  - set (x := t - a + (4 * m - 1)). pose proof (Nat.div_mod x (4 * m) ltac:(lia)) as D. pose proof (Nat.mod_upper_bound x (4 * m) ltac:(lia)) as U.
    set (c := x / (4 * m)) in *.
    (* 4 m c >= t - a *)
    assert (G : 2 * (t - a) <= m * (8 * c)).
    { assert (E : m * (8 * c) = 2 * (4 * m * c)) by ring. rewrite E. unfold x in *. lia. }
    assert (G2 : m * (10 * n) <= m * (8 * c + 30)).
    { rewrite Nat.mul_add_distr_l. unfold t in *. lia. }
    apply (Nat.mul_le_mono_pos_l _ _ m); lia.
  - set (x := S t - a + (4 * m - 1)). pose proof (Nat.div_mod x (4 * m) ltac:(lia)) as D.
    set (c := x / (4 * m)) in *.
    assert (G : m * (8 * c) <= 2 * x).
    { assert (E : m * (8 * c) = 2 * (4 * m * c)) by ring. rewrite E. lia. }
    assert (G2 : m * (8 * c) <= m * (10 * n + 40)).
    { rewrite Nat.mul_add_distr_l. unfold x, t in *. lia. }
    apply (Nat.mul_le_mono_pos_l _ _ m); lia.
Qed.

(** The transmitted bit stream of an S7 serialiser: ten pin bits per word. *)
Definition pin7_bit (inverted : bool) (w : nat -> Z) (t : nat) : bool := nth (t mod 10) (ser7_bits inverted (w (t / 10))) false.

Lemma pin7_serial : forall inv w t, pin7_bit inv w t = xorb inv (serial w t).
Proof.
  intros inv w t. unfold pin7_bit, serial. rewrite C60_s7_output. unfold flip, to_bits. rewrite map_map.
  pose proof (Nat.mod_upper_bound t 10 ltac:(lia)) as U.
  exact (nth_map_seq _ (fun x => xorb inv (Z.testbit (w (t / 10)) (Z.of_nat x))) 10 (t mod 10) false U).
Qed.

Lemma of_bits_bound10 : forall l, length l = 10 -> (0 <= of_bits l < 1024)%Z.
Proof.
  intros l H. do 10 (destruct l as [|? l]; [discriminate H|]). destruct l; [|discriminate H].
  cbn [of_bits]. repeat match goal with b : bool |- _ => destruct b end; cbv; split; congruence.
Qed.

(** Write clock 1.25 times the read clock, both free-running from one source: [4 m] and [5 m] instants per period, for any fineness [m] of
    the time scale, the first edges (the ends of the two resets) at [a] and [b].  As long as these are within three
    pixel clocks of each other, whatever was sent arrives: the received words form the sent bit stream, forty bits late
    plus the delay [d] of the line, for every polarity at both ends. *)
Theorem C86_s7_link : forall tx_inv rx_inv w d line,
  (forall t, d <= t -> line t = xorb (xorb tx_inv rx_inv) (pin7_bit tx_inv w (t - d))) ->
  forall m a b, 1 <= m -> a <= b + 15 * m -> b <= a + 16 * m ->
  forall i, (forall t, gbi_w (i t) = clocked a (4 * m) t /\ gbi_r (i t) = clocked b (5 * m) t) -> deserialised line i ->
  let raw n := gb_o (cap7_run rx_inv i (S (b + 5 * m * n))) in
  (forall n, (0 <= raw n < 1024)%Z) /\ (forall t, 40 + d <= t -> serial raw t = serial w (t - (40 + d))).
Proof.
  intros ti ri w d line HL m a b M A B i HC D raw.
  assert (EW : forall t, occurrences (fun x => gbi_w (i x)) 0 t = occurrences (clocked a (4 * m)) 0 t).
  { intros t. apply occurrences_ext. intros x _. apply (proj1 (HC _)). }
  assert (ER : forall t, occurrences (fun x => gbi_r (i x)) 0 t = occurrences (clocked b (5 * m)) 0 t).
  { intros t. apply occurrences_ext. intros x _. apply (proj2 (HC _)). }
  assert (HR : forall n, gbi_r (i (b + 5 * m * n)) = true).
  { intros n. rewrite (proj2 (HC _)). apply clocked_edge. lia. }
  split.
  - intros n. unfold raw, cap7_run. change (gb_run 8 10 10 8 ?f (S ?t)) with (gb_step 8 10 10 8 (gb_run 8 10 10 8 f t) (f t)).
    unfold gb_step. cbn [gb_o cap7_in gbi_r]. rewrite HR. apply of_bits_bound10. rewrite map_length, seq_length. reflexivity.
  - intros t T. unfold serial at 1. pose proof (Nat.div_mod t 10 ltac:(lia)) as E. pose proof (Nat.mod_upper_bound t 10 ltac:(lia)) as U.
    set (n := t / 10) in *. set (j := t mod 10) in *.
    assert (N : 4 <= n) by (unfold n; apply Nat.div_le_lower_bound; lia).
    pose proof (C86_window line ri i D (b + 5 * m * n) (HR n)) as G. cbv zeta in G. rewrite !EW, ER in G. rewrite clocked_before in G by lia.
    destruct (clocked_locked m a b n M A B N) as [G1 G2]. specialize (G N G1 G2).
    change (gb_o (cap7_run ri i (S (b + 5 * m * n)))) with (raw n) in G.
    assert (G3 : nth j (to_bits 10 (raw n)) false = Z.testbit (raw n) (Z.of_nat j)) by exact (nth_map_seq _ (fun x => Z.testbit (raw n) (Z.of_nat x)) 10 j false U).
    rewrite <- G3, G.
    rewrite (nth_map_seq _ (fun x => xorb ri (line (10 * (n - 4) + x))) 10 j false U).
    rewrite HL by lia. rewrite pin7_serial. replace (10 * (n - 4) + j - d) with (t - (40 + d)) by lia.
    destruct ti, ri, (serial w (t - (40 + d))); reflexivity.
Qed.

(** Not vacuous: m = 1, resets one and a half read clocks apart, swapped pads at the receiver, line delay 3. *)
Definition gear_ex (t : nat) : gb_in :=
  {| gbi_w := clocked 9 4 t; gbi_r := clocked 2 5 t;
     gbi_i := group8 (fun x => if x <? 3 then false else xorb true (pin7_bit false words_ex (x - 3))) ((t - 9 + 3) / 4) |}.
Example gear_meets : deserialised (fun x => if x <? 3 then false else xorb true (pin7_bit false words_ex (x - 3))) gear_ex /\
  map (fun n => gb_o (cap7_run true gear_ex (S (2 + 5 * n)))) [5; 6; 7; 8] = map (fun n => word_from (serial words_ex) (10 * n + 7)) [0; 1; 2; 3].
Proof.
  split; [|vm_compute; reflexivity]. intros t _. unfold gear_ex; cbn [gbi_w gbi_i].
  rewrite (clocked_count 9 4) by lia. reflexivity.
Qed.

Print Assumptions C86_window.
Print Assumptions C86_s7_link.
