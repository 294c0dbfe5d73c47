(** C106, C107: clock generators, and the Series 7 receive path after lock. *)
From Coq Require Import ZArith QArith List Bool Arith Lia Lqa.
From Verif Require Import Hdl Trace SerialModel CharSyncSpec CharSyncProofs SerialProps CdcProofs GearModel GearProps ClockModel.
Import ListNotations.
Open Scope nat_scope.

(** * C106: frequencies *)

(** Deserialisers and serialisers get clocks in the ratios that they are built for, at any
    input frequency: Spartan-6 1:2:10, Series 7 1:1.25:5, the second clock generator of a
    split receiver the same frequencies as the first, the outputs 1:2:10 and 1:5; the pixel
    clock of the Series 7 output is 3/2 of its base clock (150 MHz from 100 MHz). *)
Theorem C106_ratios : forall f : Q,
  (pll_out s6_in_pll f 2 == f /\ pll_out s6_in_pll f 1 == 2 * f /\ pll_out s6_in_pll f 0 == 10 * f)%Q /\
  (pll_out s7_in_mmcm f 0 == f /\ pll_out s7_in_mmcm f 1 == (5 # 4) * f /\ pll_out s7_in_mmcm f 2 == 5 * f)%Q /\
  (pll_out s7_in_split (pll_out s7_in_mmcm f 0) 0 == f /\ pll_out s7_in_split (pll_out s7_in_mmcm f 0) 2 == 5 * f)%Q /\
  (pll_out s6_out_pll f 2 == f /\ pll_out s6_out_pll f 1 == 2 * f /\ pll_out s6_out_pll f 0 == 10 * f)%Q /\
  (pll_out s7_out_mmcm f 1 == 5 * pll_out s7_out_mmcm f 0 /\ pll_out s7_out_mmcm f 0 == (3 # 2) * f)%Q.
Proof.
  intros f. unfold pll_out, vco. cbn [s6_in_pll s7_in_mmcm s7_in_split s6_out_pll s7_out_mmcm pl_mult pl_div pl_outs nth].
  repeat split; unfold Qdiv; cbn [Qinv Qnum Qden]; ring.
Qed.
(** The ranges of the code's own comment (clocking.py:193): MMCM 600 to 1440 MHz, PLL 800 to
    1866 MHz. *)
Definition mmcm_range (v : Q) : Prop := (600000000 # 1 <= v /\ v <= 1440000000 # 1)%Q.
Definition pll_range (v : Q) : Prop := (800000000 # 1 <= v /\ v <= 1866000000 # 1)%Q.
(** Full statement: every accepted input frequency gives legal VCO frequencies.  False for
    74.25 MHz, and the output's MMCM is above the range too. *)
Theorem C107_vco_refuted :
  ~ (forall f, In f s7_in_freqs -> mmcm_range (vco s7_in_mmcm f)) /\
  ~ (forall f, In f s7_in_freqs -> pll_range (vco s7_in_split (pll_out s7_in_mmcm f 0))) /\
  ~ mmcm_range (vco s7_out_mmcm (100000000 # 1)).
Proof.
  repeat split.
  - intros H. destruct (H (74250000 # 1)%Q (or_introl eq_refl)) as [A _]. vm_compute in A. apply A. reflexivity.
  - intros H. destruct (H (74250000 # 1)%Q (or_introl eq_refl)) as [A _]. vm_compute in A. apply A. reflexivity.
  - intros [_ A]. vm_compute in A. apply A. reflexivity.
Qed.
(** What remains: the default frequency, and exactly which frequencies would be legal. *)
Theorem C107_vco_partial : forall f : Q,
  (mmcm_range (vco s7_in_mmcm f) <-> (120000000 # 1 <= f /\ f <= 288000000 # 1)%Q) /\
  (pll_range (vco s7_in_split (pll_out s7_in_mmcm f 0)) <-> (80000000 # 1 <= f /\ f <= 186600000 # 1)%Q) /\
  (mmcm_range (vco s7_out_mmcm f) <-> (40000000 # 1 <= f /\ f <= 96000000 # 1)%Q) /\
  mmcm_range (vco s7_in_mmcm (148500000 # 1)) /\ pll_range (vco s7_in_split (pll_out s7_in_mmcm (148500000 # 1) 0)).
Proof.
  intros f. destruct (C106_ratios f) as (_ & (P & _) & _).
  assert (A : (vco s7_in_mmcm f == 5 * f)%Q) by (unfold vco; cbn [s7_in_mmcm pl_mult pl_div]; ring).
  assert (B : (vco s7_in_split (pll_out s7_in_mmcm f 0) == 10 * f)%Q).
  { unfold vco at 1. cbn [s7_in_split pl_mult pl_div]. rewrite P. ring. }
  assert (D : (vco s7_out_mmcm f == 15 * f)%Q) by (unfold vco; cbn [s7_out_mmcm pl_mult pl_div]; field).
  unfold mmcm_range, pll_range. rewrite A, B, D. do 3 (split; [split; intros; lra|]).
  split; vm_compute; split; discriminate.
Qed.

(** * C108: the receive path after lock *)

(** Reset synchronisers. *)
Section Ars.
Variables (lk e rc : nat -> bool) (A : nat -> ars_st) (L : nat).

Definition eff (d : nat) : nat := occurrences e L d - (if e L && rc L then 1 else 0).
Lemma occ_first : forall d, 1 <= d -> e L = true -> 1 <= occurrences e L d.
Proof. intros d D H. replace d with (1 + (d - 1)) by lia. rewrite occ_app. cbn [occurrences]. rewrite Nat.add_0_r, H. lia. Qed.
Lemma eff_S : forall d, eff (S d) = eff d + (if e (L + d) then (if (d =? 0) && rc L then 0 else 1) else 0).
Proof.
  intros d. unfold eff. cbn [occurrences]. destruct d as [|d].
  - cbn [occurrences Nat.eqb andb Nat.add]. rewrite Nat.add_0_r. destruct (e L), (rc L); reflexivity.
  - cbn [Nat.eqb andb]. destruct (e L) eqn:E; cbn [andb]; [|destruct (e (L + S d)); lia]. pose proof (occ_first (S d) ltac:(lia) E).
    destruct (rc L), (e (L + S d)); lia.
Qed.
Lemma eff_mono : forall d, eff d <= eff (S d).
Proof. intros d. rewrite eff_S. lia. Qed.
Hypothesis step : forall t, A (S t) = ars_step (lk t) (e t) (rc t) (A t).
Hypothesis L1 : 1 <= L.
Hypothesis off : lk (L - 1) = false.
Hypothesis on : forall t, L <= t -> lk t = true.

Lemma ars_inv : forall d, ars_p (A (L + d)) = (d =? 0) /\ ars_0 (A (L + d)) = (eff d <? 1) /\ ars_1 (A (L + d)) = (eff d <? 2).
Proof.
  induction d as [|d (I1 & I2 & I3)].
  - rewrite Nat.add_0_r. replace L with (S (L - 1)) by lia. rewrite step, off. cbn. repeat split.
  - rewrite Nat.add_succ_r, step, on by lia. unfold ars_step; cbn [ars_p ars_0 ars_1 negb]. rewrite I1, I2, I3, eff_S. split; [reflexivity|].
    destruct (e (L + d)) eqn:E; [|rewrite Nat.add_0_r; split; reflexivity]. destruct d as [|d].
    + rewrite Nat.add_0_r in E. cbn [Nat.eqb andb]. unfold eff. cbn [occurrences]. destruct (rc (L + 0)) eqn:R; rewrite Nat.add_0_r in R; rewrite R; split; reflexivity.
    + cbn [Nat.eqb andb]. split; destruct (Nat.ltb_spec (eff (S d)) 1); destruct (Nat.ltb_spec (eff (S d) + 1) 1); destruct (Nat.ltb_spec (eff (S d) + 1) 2); lia || reflexivity.
Qed.
End Ars.

Lemma bool_switch : forall (f : nat -> bool) N, (forall d, f d = false -> f (S d) = false) -> f N = false ->
  exists D, D <= N /\ (forall d, d < D -> f d = true) /\ (forall d, D <= d -> f d = false).
Proof.
  intros f N M. assert (G : forall d k, f d = false -> f (d + k) = false).
  { intros d k H. induction k as [|k IH]; [rewrite Nat.add_0_r; exact H|]. rewrite Nat.add_succ_r. apply M, IH. }
  induction N as [|N IH]; intros H.
  - exists 0. repeat split; [lia|lia|]. intros d _. apply (G 0 d H).
  - destruct (f N) eqn:E.
    + exists (S N). repeat split; [lia| |].
      * intros d D. destruct (f d) eqn:F; [reflexivity|]. exfalso. pose proof (G d (N - d) F) as X. replace (d + (N - d)) with N in X by lia. congruence.
      * intros d D. replace d with (S N + (d - S N)) by lia. apply G, H.
    + destruct (IH eq_refl) as (D & D1 & D2 & D3). exists D. repeat split; [lia|exact D2|exact D3].
Qed.

Lemma edge_count : forall q, 1 <= q -> forall L n, occurrences (fun t => t mod q =? 0) L n = (L + n + (q - 1)) / q - (L + (q - 1)) / q.
Proof.
  intros q Q L n.
  assert (Z : forall k, occurrences (fun t => t mod q =? 0) 0 k = (k + (q - 1)) / q).
  { intros k. rewrite <- (occurrences_ext (clocked 0 q)); [rewrite clocked_count by exact Q; f_equal; lia|].
    intros t _. unfold clocked. rewrite Nat.sub_0_r. reflexivity. }
  pose proof (Z (L + n)) as H. rewrite occ_app, Nat.add_0_l, (Z L) in H. lia.
Qed.
Lemma edge_periods : forall q k, 1 <= q -> forall L, occurrences (fun t => t mod q =? 0) L (k * q) = k.
Proof.
  intros q k Q L. rewrite edge_count by exact Q. replace (L + k * q + (q - 1)) with (L + (q - 1) + k * q) by lia. rewrite Nat.div_add by lia. lia.
Qed.
Lemma first_edge : forall q, 1 <= q -> forall R, exists a, a < q /\ forall k, clocked a q k = ((R + k) mod q =? 0).
Proof.
  intros q Q R. pose proof (Nat.div_mod R q ltac:(lia)) as E. pose proof (Nat.mod_upper_bound R q ltac:(lia)) as U.
  set (r := R mod q) in *. set (z := R / q) in *. destruct (Nat.eq_dec r 0) as [Z|Z].
  - exists 0. split; [lia|]. intros k. unfold clocked. rewrite Nat.sub_0_r. cbn [Nat.leb andb]. f_equal. replace (R + k) with (k + z * q) by lia. rewrite Nat.mod_add by lia. reflexivity.
  - exists (q - r). split; [lia|]. intros k. unfold clocked. destruct (Nat.leb_spec (q - r) k) as [K|K]; cbn [andb].
    + f_equal. replace (R + k) with (k - (q - r) + (z + 1) * q) by lia. rewrite Nat.mod_add by lia. reflexivity.
    + replace (R + k) with (r + k + z * q) by lia. rewrite Nat.mod_add, Nat.mod_small by lia. symmetry. apply Nat.eqb_neq. lia.
Qed.

(** The instant [b] and the number [k] of groups that are lost depend only on the instant of the lock and
    on the races, so they are the same for all channels of a receiver. *)
Lemma after_lock_common : forall m, 1 <= m -> forall L, 1 <= L -> forall rw rr : bool,
  exists b k, pll_edge m 5 b = true /\ L < b <= L + 20 * m /\ k <= 4 /\
  forall tx_inv rx_inv w d line,
  (forall t, d <= t -> line t = xorb (xorb tx_inv rx_inv) (pin7_bit tx_inv w (t - d))) ->
  forall s0 x, cri_lock (x (L - 1)) = false -> cri_rw (x L) = rw -> cri_rr (x L) = rr ->
  (forall t, L <= t -> cri_lock (x t) = true /\ gbi_w (cri_g (x t)) = pll_edge m 4 t /\ gbi_r (cri_g (x t)) = pll_edge m 5 t) ->
  (forall t, L <= t -> pll_edge m 4 t = true -> gbi_i (cri_g (x t)) = group8 line (occurrences (pll_edge m 4) L (t - L))) ->
  let raw n := gb_o (cr_g (cr_run rx_inv s0 x (S (b + 5 * m * n)))) in
  (forall n, (0 <= raw n < 1024)%Z) /\
  (forall t, 40 <= t -> 40 + d <= t + 8 * k -> serial raw t = serial w (t + 8 * k - (40 + d))).
Proof.
  intros m M L L1 rw rr.
  set (ew := eff (pll_edge m 4) (fun _ => rw) L). set (er := eff (pll_edge m 5) (fun _ => rr) L).
  destruct (bool_switch (fun k => (ew k <? 2) || (er k <? 2)) (3 * (5 * m))) as (D & D1 & D2 & D3).
  { intros k. rewrite !orb_false_iff, !Nat.ltb_ge. intros [H1 H2]. split; [etransitivity; [exact H1|apply eff_mono]|etransitivity; [exact H2|apply eff_mono]]. }
  { apply orb_false_iff. rewrite !Nat.ltb_ge. unfold ew, er, eff. split.
    - assert (3 <= occurrences (pll_edge m 4) L (3 * (5 * m))).
      { replace (3 * (5 * m)) with (3 * (4 * m) + 3 * m) by lia. rewrite occ_app. unfold pll_edge at 1. rewrite edge_periods by lia. lia. }
      destruct (_ && _); lia.
    - assert (occurrences (pll_edge m 5) L (3 * (5 * m)) = 3) by (unfold pll_edge; apply edge_periods; lia). destruct (_ && _); lia. }
  cbv beta in D2, D3.
  assert (E2 : 2 <= occurrences (pll_edge m 4) L D /\ 2 <= occurrences (pll_edge m 5) L D).
  { specialize (D3 D (le_n _)). apply orb_false_iff in D3. rewrite !Nat.ltb_ge in D3. unfold ew, er, eff in D3. lia. }
  set (R := L + D) in *.
  set (k0 := occurrences (pll_edge m 4) L D) in *.
  assert (K0 : k0 <= 4).
  { unfold k0. pose proof (edge_periods (4 * m) 4 ltac:(lia) L) as P. replace (4 * (4 * m)) with (D + (16 * m - D)) in P by lia. rewrite occ_app in P. unfold pll_edge. lia. }
  destruct (first_edge (4 * m) ltac:(lia) R) as (a & A1 & A2). destruct (first_edge (5 * m) ltac:(lia) R) as (b & B1 & B2).
  exists (R + b), k0. split.
  { pose proof (B2 b) as H. rewrite <- (Nat.add_0_r b) in H at 2. pose proof (clocked_edge b (5 * m) 0 ltac:(lia)) as C. rewrite Nat.mul_0_r in C. rewrite Nat.add_0_r in C, H. rewrite C in H. unfold pll_edge. symmetry. exact H. }
  split; [unfold R; assert (D <> 0) by (intros ->; cbn [occurrences] in E2; lia); lia|]. split; [exact K0|].
  intros ti ri w d line HL s0 x OFF RW RR ON DS. cbv zeta.
  set (st := fun t => cr_run ri s0 x t).
  assert (ST : forall t, st (S t) = cr_step ri (st t) (x t)) by reflexivity.
  pose proof (ars_inv (fun t => cri_lock (x t)) (fun t => gbi_w (cri_g (x t))) (fun t => cri_rw (x t)) (fun t => cr_w (st t)) L
    ltac:(intros t; cbv beta; rewrite ST; reflexivity) L1 OFF ltac:(intros t T; apply (ON t T))) as AW.
  pose proof (ars_inv (fun t => cri_lock (x t)) (fun t => gbi_r (cri_g (x t))) (fun t => cri_rr (x t)) (fun t => cr_r (st t)) L
    ltac:(intros t; cbv beta; rewrite ST; reflexivity) L1 OFF ltac:(intros t T; apply (ON t T))) as AR.
  assert (OW : forall n, occurrences (fun t => gbi_w (cri_g (x t))) L n = occurrences (pll_edge m 4) L n) by (intros n; apply occurrences_ext; intros t T; apply ON; lia).
  assert (OR : forall n, occurrences (fun t => gbi_r (cri_g (x t))) L n = occurrences (pll_edge m 5) L n) by (intros n; apply occurrences_ext; intros t T; apply ON; lia).
  assert (RST : forall k, cr_rst (st (L + k)) = (ew k <? 2) || (er k <? 2)).
  { intros k. unfold cr_rst. destruct (AW k) as (_ & _ & ->). destruct (AR k) as (_ & _ & ->). unfold ew, er, eff. rewrite OW, OR, RW, RR.
    destruct (ON L (le_n _)) as (_ & -> & ->). reflexivity. }
  assert (INI : forall k, k <= D -> (1 <= occurrences (pll_edge m 4) L k -> gb_mem (cr_g (st (L + k))) = repeat 0%Z 10 /\ gb_wp (cr_g (st (L + k))) = 5) /\
    (1 <= occurrences (pll_edge m 5) L k -> gb_rp (cr_g (st (L + k))) = 0 /\ gb_o (cr_g (st (L + k))) = 0%Z)).
  { induction k as [|k IH]; intros K; [cbn [occurrences]; split; lia|]. specialize (IH ltac:(lia)). rewrite Nat.add_succ_r, ST. cbn [occurrences].
    unfold cr_step; cbn [cr_g]. rewrite RST, D2 by lia. unfold gb_step_r; cbn [gb_mem gb_wp gb_rp gb_o andb cap7_in gbi_w gbi_r gb_step].
    destruct (ON (L + k) ltac:(lia)) as (_ & -> & ->). split; intros H.
    - destruct (pll_edge m 4 (L + k)); [split; reflexivity|]. apply IH. lia.
    - destruct (pll_edge m 5 (L + k)); [split; reflexivity|]. apply IH. lia. }
  destruct (INI D (le_n _)) as [I1 I2]. specialize (I1 ltac:(lia)). specialize (I2 ltac:(lia)). fold R in I1, I2.
  set (i := fun k => cri_g (x (R + k))).
  assert (GB : forall k, cr_g (st (R + k)) = cap7_run ri i k).
  { induction k as [|k IH].
    - rewrite Nat.add_0_r. destruct (cr_g (st R)) as [a1 a2 a3 a4]. cbn [gb_mem gb_wp gb_rp gb_o] in I1, I2. destruct I1 as [-> ->]. destruct I2 as [-> ->]. reflexivity.
    - rewrite Nat.add_succ_r, ST. unfold cr_step; cbn [cr_g]. unfold R at 1. rewrite <- Nat.add_assoc, RST, D3 by lia. rewrite IH. reflexivity. }
  set (line' := fun t => line (8 * k0 + t)).
  assert (EDG : forall t, gbi_w (i t) = clocked a (4 * m) t /\ gbi_r (i t) = clocked b (5 * m) t).
  { intros t. unfold i. destruct (ON (R + t) ltac:(unfold R; lia)) as (_ & -> & ->). rewrite A2, B2. split; reflexivity. }
  assert (DES : deserialised line' i).
  { intros t T. unfold i in T. destruct (ON (R + t) ltac:(unfold R; lia)) as (_ & W & _). rewrite W in T. unfold i at 1.
    rewrite DS by (assumption || unfold R; lia). replace (R + t - L) with (D + t) by (unfold R; lia). rewrite occ_app. fold k0.
    replace (occurrences (fun k => gbi_w (i k)) 0 t) with (occurrences (pll_edge m 4) (L + D) t).
    - unfold group8, line'. f_equal. apply map_ext. intros j. f_equal. lia.
    - fold R. clear -ON. assert (G : forall n, occurrences (pll_edge m 4) R n = occurrences (fun k => gbi_w (i k)) 0 n); [|apply G].
      induction n as [|n IH]; [reflexivity|]. cbn [occurrences]. rewrite IH, Nat.add_0_l. change (gbi_w (i n)) with (gbi_w (cri_g (x (R + n)))). destruct (ON (R + n) ltac:(unfold R; lia)) as (_ & -> & _). reflexivity. }
  assert (RAW : forall n, gb_o (cr_g (cr_run ri s0 x (S (R + b + 5 * m * n)))) = gb_o (cap7_run ri i (S (b + 5 * m * n)))).
  { intros n. replace (S (R + b + 5 * m * n)) with (R + S (b + 5 * m * n)) by lia. fold (st (R + S (b + 5 * m * n))). rewrite GB. reflexivity. }
  destruct (Nat.le_gt_cases d (8 * k0)) as [DK|DK].
  - set (e := 8 * k0 - d).
    destruct (C86_s7_link ti ri (misaligned w e) 0 line' ltac:(intros t _; unfold line'; rewrite HL by lia; rewrite !pin7_serial, serial_misaligned; f_equal; f_equal; f_equal; unfold e; lia)
      m a b M ltac:(lia) ltac:(lia) i EDG DES) as [BB SS].
    split; [intros n; rewrite RAW; apply BB|]. intros t T T2.
    transitivity (serial (fun n => gb_o (cap7_run ri i (S (b + 5 * m * n)))) t).
    + unfold serial. rewrite RAW. reflexivity.
    + rewrite SS by lia. rewrite serial_misaligned. f_equal. unfold e. lia.
  - destruct (C86_s7_link ti ri w (d - 8 * k0) line' ltac:(intros t Ht; unfold line'; rewrite HL by lia; f_equal; f_equal; lia)
      m a b M ltac:(lia) ltac:(lia) i EDG DES) as [BB SS].
    split; [intros n; rewrite RAW; apply BB|]. intros t T T2.
    transitivity (serial (fun n => gb_o (cap7_run ri i (S (b + 5 * m * n)))) t).
    + unfold serial. rewrite RAW. reflexivity.
    + rewrite SS by lia. f_equal. lia.
Qed.

Theorem C108_after_lock : forall tx_inv rx_inv w d line,
  (forall t, d <= t -> line t = xorb (xorb tx_inv rx_inv) (pin7_bit tx_inv w (t - d))) ->
  forall m, 1 <= m ->
  forall s0 x L, 1 <= L -> cri_lock (x (L - 1)) = false ->
  (forall t, L <= t -> cri_lock (x t) = true /\ gbi_w (cri_g (x t)) = pll_edge m 4 t /\ gbi_r (cri_g (x t)) = pll_edge m 5 t) ->
  (forall t, L <= t -> pll_edge m 4 t = true -> gbi_i (cri_g (x t)) = group8 line (occurrences (pll_edge m 4) L (t - L))) ->
  exists b k, pll_edge m 5 b = true /\ L < b <= L + 20 * m /\ k <= 4 /\
  let raw n := gb_o (cr_g (cr_run rx_inv s0 x (S (b + 5 * m * n)))) in
  (forall n, (0 <= raw n < 1024)%Z) /\
  (forall t, 40 <= t -> 40 + d <= t + 8 * k -> serial raw t = serial w (t + 8 * k - (40 + d))).
Proof.
  intros ti ri w d line HL m M s0 x L L1 OFF ON DS.
  destruct (after_lock_common m M L L1 (cri_rw (x L)) (cri_rr (x L))) as (b & k & B1 & B2 & K & H).
  exists b, k. split; [exact B1|]. split; [exact B2|]. split; [exact K|].
  exact (H ti ri w d line HL s0 x OFF eq_refl eq_refl ON DS).
Qed.

(** Not vacuous: lock at instant 8, an edge of pix1p25x that the reset synchroniser misses,
    an arbitrary state before, line delay 3. *)
Definition lock_line (t : nat) : bool := if t <? 3 then false else xorb true (pin7_bit false words_ex (t - 3)).
Definition lock_ex (t : nat) : cr_in :=
  {| cri_lock := 8 <=? t; cri_rw := true; cri_rr := false;
     cri_g := {| gbi_w := pll_edge 1 4 t; gbi_r := pll_edge 1 5 t; gbi_i := group8 lock_line ((t + 3) / 4 - 2) |} |}.
Definition lock_s0 : cr_st :=
  {| cr_w := {| ars_p := false; ars_0 := false; ars_1 := false |}; cr_r := {| ars_p := false; ars_0 := true; ars_1 := false |};
     cr_g := {| gb_mem := repeat 85%Z 10; gb_wp := 3; gb_rp := 2; gb_o := 7%Z |} |}.
Example lock_hyp : (forall t, 3 <= t -> lock_line t = xorb (xorb false true) (pin7_bit false words_ex (t - 3))) /\ cri_lock (lock_ex (8 - 1)) = false /\
  (forall t, 8 <= t -> cri_lock (lock_ex t) = true /\ gbi_w (cri_g (lock_ex t)) = pll_edge 1 4 t /\ gbi_r (cri_g (lock_ex t)) = pll_edge 1 5 t) /\
  (forall t, 8 <= t -> pll_edge 1 4 t = true -> gbi_i (cri_g (lock_ex t)) = group8 lock_line (occurrences (pll_edge 1 4) 8 (t - 8))).
Proof.
  split; [|split; [reflexivity|split]].
  - intros t T. unfold lock_line. destruct (Nat.ltb_spec t 3); [lia|reflexivity].
  - intros t T. unfold lock_ex; cbn [cri_lock cri_g gbi_w gbi_r]. rewrite (proj2 (Nat.leb_le _ _)) by lia. repeat split.
  - intros t T _. unfold lock_ex; cbn [cri_g gbi_i]. f_equal. unfold pll_edge. rewrite (edge_count (4 * 1) ltac:(lia)). replace (8 + (t - 8)) with t by lia. reflexivity.
Qed.
(** Three groups passed before the resets ended: 24 - 43 = -19 bits. *)
Example lock_run : map (fun n => gb_o (cr_g (cr_run true lock_s0 lock_ex (S (20 + 5 * n))))) [4; 5; 6; 7] = map (fun n => word_from (serial words_ex) n) [21; 31; 41; 51] .
Proof. vm_compute. reflexivity. Qed.

Print Assumptions C106_ratios.
Print Assumptions C107_vco_refuted.
Print Assumptions C107_vco_partial.
Print Assumptions C108_after_lock.
