(** C103-C105: status values that software reads from other clock domains. *)
From Coq Require Import ZArith List Bool Arith Lia.
From Verif Require Import Hdl Trace CdcModel CdcProofs CdcProps VideoOutModel StatusModel AnalysisModel SerialModel SerialProps
  TimingModel TimingSpec TimingProofs LinkModel LinkProofs LinkProps HdmiModel TapProofs.
Import ListNotations.
Open Scope nat_scope.

Lemma race_same : forall m a, bit_race m a a = a.
Proof. intros. unfold bit_race. rewrite Z.lxor_nilpotent, Z.land_0_r, Z.lxor_0_r. reflexivity. Qed.

Section Reg.
Variables (v : nat -> Z) (x : nat -> mr_in).
(** Source clocks before instant [n]. *)
Definition src_clocks n := occurrences (fun t => mri_src (x t)) 0 n.
Definition sys_edges p n := occurrences (fun t => mri_sys (x t)) p (n - p).
(** What software reads. *)
Definition reg_read n := mr_m1 (mr_run v x n).

Lemma mr_S : forall n, mr_run v x (S n) = mr_step v (mr_run v x n) (x n). Proof. reflexivity. Qed.
Lemma mr_count : forall n, mr_k (mr_run v x n) = src_clocks n.
Proof.
  induction n as [|n IH]; [reflexivity|]. rewrite mr_S. unfold mr_step; cbn [mr_k]. rewrite IH. unfold src_clocks. cbn [occurrences Nat.add].
  destruct (mri_src (x n)); lia.
Qed.
Lemma src_mono : forall m n, m <= n -> src_clocks m <= src_clocks n.
Proof. intros m n L. unfold src_clocks. replace n with (m + (n - m)) by lia. rewrite occ_app. lia. Qed.
Lemma reg_settled : forall c p n, p <= n -> (forall k, src_clocks p <= k <= src_clocks n -> v k = c) -> 2 <= sys_edges p n -> reg_read n = c.
Proof.
  intros c p n L H SE.
  assert (G : forall d, p + d <= n -> (1 <= sys_edges p (p + d) -> mr_m0 (mr_run v x (p + d)) = c) /\ (2 <= sys_edges p (p + d) -> mr_m1 (mr_run v x (p + d)) = c)).
  { induction d as [|d IH]; intros D; unfold sys_edges; [rewrite Nat.add_0_r, Nat.sub_diag; cbn; lia|].
    specialize (IH ltac:(lia)). unfold sys_edges in IH. replace (p + S d - p) with (S d) by lia. replace (p + d - p) with d in IH by lia.
    rewrite Nat.add_succ_r, mr_S. cbn [occurrences]. unfold mr_step; cbn [mr_m0 mr_m1]. rewrite mr_count.
    assert (E : bit_race (mri_race (x (p + d))) (v (src_clocks (p + d))) (v (if mri_src (x (p + d)) then S (src_clocks (p + d)) else src_clocks (p + d))) = c).
    { assert (K : (if mri_src (x (p + d)) then S (src_clocks (p + d)) else src_clocks (p + d)) = src_clocks (S (p + d))).
      { unfold src_clocks. cbn [occurrences Nat.add]. destruct (mri_src (x (p + d))); lia. }
      rewrite K. pose proof (src_mono p (p + d) ltac:(lia)). pose proof (src_mono (p + d) (S (p + d)) ltac:(lia)). pose proof (src_mono (S (p + d)) n ltac:(lia)).
      rewrite !H by lia. apply race_same. }
    destruct (mri_sys (x (p + d))).
    - split; [intros _; exact E|]. intros Z. apply (proj1 IH). lia.
    - rewrite Nat.add_0_r. exact IH. }
  specialize (G (n - p)). replace (p + (n - p)) with n in G by lia. apply G; [lia|exact SE].
Qed.
(** If the race between consecutive values always has a value in [P], so has the reading. *)
Lemma reg_always : forall (P : Z -> Prop), P 0%Z -> (forall k m, P (v k) /\ P (bit_race m (v k) (v (S k)))) -> forall n, P (reg_read n).
Proof.
  intros P P0 H. assert (G : forall n, P (mr_m0 (mr_run v x n)) /\ P (mr_m1 (mr_run v x n))); [|intros n; apply G].
  induction n as [|n [I0 I1]]; [split; exact P0|]. rewrite mr_S. unfold mr_step; cbn [mr_m0 mr_m1].
  destruct (mri_sys (x n)); [|split; assumption]. split; [|exact I0]. destruct (mri_src (x n)); [apply H|]. rewrite race_same. apply (proj1 (H _ 0%Z)).
Qed.
End Reg.

(** * C103: the measured resolution *)

(** Full statement: whatever software reads has been measured.  False: at a change the bits
    of two measurements mix.  A line of three pixels followed by one of four, read as seven. *)
Definition ex_lines (t : nat) : rd_in := {| rdi_valid := true; rdi_vsync := false; rdi_de := nth t [true; true; true; false; true; true; true; true; false] false |}.
Theorem C103_only_measured_refuted :
  ~ (forall nbits i x n, let v k := rd_h (at_ (rd_step nbits) rd_init i k) in exists k, reg_read v x n = v k).
Proof.
  intros H. destruct (H 11%Z ex_lines (fun _ => {| mri_src := true; mri_sys := true; mri_race := 4%Z |}) 10) as (k & K).
  assert (R : reg_read (fun k => rd_h (at_ (rd_step 11) rd_init ex_lines k)) (fun _ => {| mri_src := true; mri_sys := true; mri_race := 4%Z |}) 10 = 7%Z) by (vm_compute; reflexivity).
  cbv zeta in K. rewrite R in K. clear R H.
  assert (DE : forall t, 9 <= t -> rdi_de (ex_lines t) = false) by (intros t T; cbn [ex_lines rdi_de]; apply nth_overflow; exact T).
  assert (G : forall t, 9 <= t -> rd_h (at_ (rd_step 11) rd_init ex_lines t) = 4%Z /\ rd_de_r (at_ (rd_step 11) rd_init ex_lines t) = false).
  { intros t T. induction T as [|t T [I1 I2]]; [vm_compute; split; reflexivity|]. cbn [at_]. set (s := at_ (rd_step 11) rd_init ex_lines t) in *.
    unfold rd_step; cbv zeta; cbn [rd_h rd_de_r]. rewrite I1, I2, DE by exact T. split; reflexivity. }
  destruct (Nat.le_gt_cases 9 k) as [L|L].
  - destruct (G k L) as [A _]. rewrite A in K. discriminate.
  - do 9 (destruct k as [|k]; [vm_compute in K; discriminate|]). lia.
Qed.
(** What remains: a measurement that stands for two system clocks is read (and so are the
    zeros while the receiver has no signal). *)
Theorem C103_settled_partial : forall nbits i x p n,
  let r k := at_ (rd_step nbits) rd_init i k in
  p <= n -> 2 <= sys_edges x p n ->
  (forall h, (forall k, src_clocks x p <= k <= src_clocks x n -> rd_h (r k) = h) -> reg_read (fun k => rd_h (r k)) x n = h) /\
  (forall w, (forall k, src_clocks x p <= k <= src_clocks x n -> rd_v (r k) = w) -> reg_read (fun k => rd_v (r k)) x n = w).
Proof. intros nbits i x p n r L S. split; intros h H; apply (reg_settled _ x h p n L H S). Qed.
(** Over a link (C71) software reads the programmed resolution after five frames and two
    system clocks, for ever. *)
Theorem C103_resolution_read_partial :
  forall p : fparam,
  (params_ok p -> 24 <= p_hres p -> p_hres p + 30 <= p_hscan p + 1 -> 1 <= p_vres p <= p_vscan p ->
  p_hres p < p_hs_start p -> p_vres p <= p_vs_start p < p_vs_end p ->
  forall w L Lmin raw s0, link (tx_stream p w) L Lmin raw s0 ->
  exists D, (forall k, (k < 3)%nat -> (L k / 10 + 7 < D <= L k / 10 + 15)%nat) /\
  forall x q n, (q <= n)%nat -> Z.of_nat D + 5 * ((p_hscan p + 1) * (p_vscan p + 1)) <= Z.of_nat (src_clocks x q) -> (2 <= sys_edges x q n)%nat ->
  reg_read (fun k => rd_h (rx_rd (rx_run s0 raw k))) x n = p_hres p mod 2 ^ 11 /\
  reg_read (fun k => rd_v (rx_rd (rx_run s0 raw k))) x n = p_vres p mod 2 ^ 11)%Z.
Proof.
  intros p ok H1 H2 H3 H4 H5 w L Lmin raw s0 Hl. destruct (C71_resolution_over_link p ok H1 H2 H3 H4 H5 w L Lmin raw s0 Hl) as (D & B & P).
  exists D. split; [exact B|]. intros x q n QN K S. split; apply (reg_settled _ x _ q n QN); try exact S; intros k Hk; apply P; lia.
Qed.
Example ex_read : reg_read (fun k => rd_h (at_ (rd_step 11) rd_init ex_lines k)) (fun _ => {| mri_src := true; mri_sys := true; mri_race := 4%Z |}) 12 = 4%Z.
Proof. vm_compute. reflexivity. Qed.

(** * C104: the phase error bits *)

(** Bit 0: too late, bit 1: too early (datacapture.py:191, 443). *)
Definition phase_bits (w l : Z) : Z := ((if too_late w l then 1 else 0) + 2 * (if too_early l then 1 else 0))%Z.
Lemma land_pow2 : forall m k, (0 <= k)%Z -> Z.land m (2 ^ k) = 0%Z \/ Z.land m (2 ^ k) = (2 ^ k)%Z.
Proof.
  intros m k K. destruct (Z.testbit m k) eqn:T; [right|left]; apply Z.bits_inj'; intros j J; rewrite Z.land_spec, ?Z.bits_0.
  - destruct (Z.eq_dec j k) as [->|NE]; [rewrite T; reflexivity|]. rewrite Z.pow2_bits_false by lia. apply andb_false_r.
  - destruct (Z.eq_dec j k) as [->|NE]; [rewrite T; reflexivity|]. rewrite Z.pow2_bits_false by lia. apply andb_false_r.
Qed.
Lemma phase_pair : forall w l l', (2 <= w)%Z -> l' = l \/ l' = (2 ^ (w - 1))%Z \/ (too_late w l = false /\ too_early l = false) ->
  forall m, let P z := (z = 0 \/ z = 1 \/ z = 2)%Z in P (phase_bits w l) /\ P (bit_race m (phase_bits w l) (phase_bits w l')).
Proof.
  intros w l l' W H m P.
  assert (P2 : (2 ^ w = 2 * 2 ^ (w - 1))%Z) by (rewrite <- Z.pow_succ_r by lia; f_equal; lia).
  assert (P1 : (2 <= 2 ^ (w - 1))%Z) by (apply (Z.pow_le_mono_r 2 1); lia).
  assert (V : forall z, P (phase_bits w z)).
  { intros z. unfold phase_bits, P, too_late, too_early. destruct (Z.eqb_spec z (2 ^ w - 1)), (Z.eqb_spec z 0); lia. }
  assert (Z2 : phase_bits w (2 ^ (w - 1)) = 0%Z).
  { unfold phase_bits, too_late, too_early. destruct (Z.eqb_spec (2 ^ (w - 1)) (2 ^ w - 1)), (Z.eqb_spec (2 ^ (w - 1)) 0); lia. }
  assert (R : forall c z, (c = 0 \/ c = 1 \/ c = 2)%Z -> z = 0%Z \/ c = 0%Z -> (z = 0 \/ z = 1 \/ z = 2)%Z -> P (bit_race m c z)).
  { intros c z C Q Z. unfold bit_race, P.
    pose proof (land_pow2 m 0 ltac:(lia)) as B0. pose proof (land_pow2 m 1 ltac:(lia)) as B1. change (2 ^ 0)%Z with 1%Z in B0. change (2 ^ 1)%Z with 2%Z in B1.
    destruct Q as [-> | ->].
    - rewrite Z.lxor_0_r. destruct C as [-> |[-> | ->]]; [rewrite Z.land_0_r; cbn; lia| |]; [destruct B0 as [-> | ->]|destruct B1 as [-> | ->]]; cbn; lia.
    - rewrite !Z.lxor_0_l. destruct Z as [-> |[-> | ->]]; [rewrite Z.land_0_r; cbn; lia|lia|lia]. }
  split; [apply V|]. destruct H as [-> |[-> |[A B]]].
  - rewrite race_same. apply V.
  - rewrite Z2. apply R; [apply V|left; reflexivity|left; reflexivity].
  - apply R; [apply V|right; unfold phase_bits; rewrite A, B; reflexivity|apply V].
Qed.
Lemma half_fits : forall w, (2 <= w)%Z -> trunc w (2 ^ (w - 1)) = (2 ^ (w - 1))%Z.
Proof. intros w W. unfold trunc. apply Z.mod_small. split; [apply Z.pow_nonneg; lia|apply Z.pow_lt_mono_r; lia]. Qed.
(** Software never reads both bits set, and what it reads has a meaning. *)
Theorem C104_s6_exclusive : forall w i x n, (2 <= w)%Z -> let r := reg_read (fun k => phase_bits w (l6_run w i k)) x n in (r = 0 \/ r = 1 \/ r = 2)%Z.
Proof.
  intros w i x n W. cbv zeta. apply (reg_always _ x (fun z => (z = 0 \/ z = 1 \/ z = 2)%Z)); [lia|]. intros k m. apply (phase_pair w (l6_run w i k) (l6_run w i (S k)) W).
  change (l6_run w i (S k)) with (l6_step w (l6_run w i k) (i k)). unfold l6_step. rewrite half_fits by exact W. destruct (l6_reset (i k)); [auto|].
  destruct (too_late w (l6_run w i k)), (too_early (l6_run w i k)); cbn [negb andb]; rewrite ?andb_false_r; cbn [andb]; auto.
Qed.
Theorem C104_s7_exclusive : forall w i x n, (2 <= w)%Z -> let r := reg_read (fun k => phase_bits w (l7_late (l7_run w i k))) x n in (r = 0 \/ r = 1 \/ r = 2)%Z.
Proof.
  intros w i x n W. cbv zeta. apply (reg_always _ x (fun z => (z = 0 \/ z = 1 \/ z = 2)%Z)); [lia|]. intros k m. apply (phase_pair w (l7_late (l7_run w i k)) (l7_late (l7_run w i (S k))) W).
  change (l7_run w i (S k)) with (l7_step w (l7_run w i k) (i k)). unfold l7_step; cbv zeta; cbn [l7_late]. rewrite half_fits by exact W. destruct (l7_reset (i k)); [auto|].
  destruct (too_late w (l7_late (l7_run w i k))), (too_early (l7_late (l7_run w i k))); cbn [negb andb]; auto.
Qed.
(** A saturated accumulator is read two system clocks later, until it is reset. *)
Theorem C104_reported : forall w k0, (2 <= w)%Z ->
  (forall i x p n, (forall k, k0 <= k -> k < src_clocks x n -> l6_reset (i k) = false) -> k0 <= src_clocks x p -> p <= n -> 2 <= sys_edges x p n ->
     phase_bits w (l6_run w i k0) <> 0%Z -> reg_read (fun k => phase_bits w (l6_run w i k)) x n = phase_bits w (l6_run w i k0)) /\
  (forall i x p n, (forall k, k0 <= k -> k < src_clocks x n -> l7_reset (i k) = false) -> k0 <= src_clocks x p -> p <= n -> 2 <= sys_edges x p n ->
     phase_bits w (l7_late (l7_run w i k0)) <> 0%Z -> reg_read (fun k => phase_bits w (l7_late (l7_run w i k))) x n = phase_bits w (l7_late (l7_run w i k0))).
Proof.
  intros w k0 W.
  assert (N : forall l, phase_bits w l <> 0%Z -> (too_late w l = true \/ too_early l = true)).
  { intros l H. unfold phase_bits in H. destruct (too_late w l), (too_early l); auto. }
  split; intros i x p n R K L SE H.
  - apply (reg_settled _ x _ p n L); [|exact SE]. intros k [K1 K2]. f_equal. pose proof (src_mono x p n L). clear SE.
    assert (G : forall d, k0 + d <= src_clocks x n -> l6_run w i (k0 + d) = l6_run w i k0).
    { induction d as [|d IH]; intros D; [rewrite Nat.add_0_r; reflexivity|]. rewrite Nat.add_succ_r.
      change (l6_run w i (S (k0 + d))) with (l6_step w (l6_run w i (k0 + d)) (i (k0 + d))). rewrite IH by lia. unfold l6_step. rewrite R by lia.
      destruct (N _ H) as [-> | ->]; cbn [negb andb]; rewrite ?andb_false_r; cbn [andb]; reflexivity. }
    replace k with (k0 + (k - k0)) by lia. apply G. lia.
  - apply (reg_settled _ x _ p n L); [|exact SE]. intros k [K1 K2]. f_equal. pose proof (src_mono x p n L). clear SE.
    assert (G : forall d, k0 + d <= src_clocks x n -> l7_late (l7_run w i (k0 + d)) = l7_late (l7_run w i k0)).
    { induction d as [|d IH]; intros D; [rewrite Nat.add_0_r; reflexivity|]. rewrite Nat.add_succ_r.
      change (l7_run w i (S (k0 + d))) with (l7_step w (l7_run w i (k0 + d)) (i (k0 + d))). unfold l7_step; cbv zeta; cbn [l7_late]. rewrite IH by lia. rewrite R by lia.
      destruct (N _ H) as [-> | ->]; cbn [negb andb]; rewrite ?andb_false_r; cbn [andb]; reflexivity. }
    replace k with (k0 + (k - k0)) by lia. apply G. lia.
Qed.
Definition ex_late (k : nat) : l6_in := {| l6_reset := Nat.eqb k 9; l6_mbusy := false; l6_sbusy := false; l6_valid := true; l6_incdec := false |}.
Definition ex_late_x (n : nat) : mr_in := {| mri_src := true; mri_sys := Nat.even n; mri_race := Z.of_nat n |}.
Example ex_phase : phase_bits 3 (l6_run 3 ex_late 3) = 1%Z /\ reg_read (fun k => phase_bits 3 (l6_run 3 ex_late k)) ex_late_x 8 = 1%Z /\
  reg_read (fun k => phase_bits 3 (l6_run 3 ex_late k)) ex_late_x 2 = 0%Z /\ sys_edges ex_late_x 4 8 = 2 /\ src_clocks ex_late_x 4 = 4.
Proof. vm_compute. repeat split. Qed.

(** * C105: the underflow count *)
Section C105.
Variable x : nat -> uc_in.
Definition u_sys n := uci_sys (x n).
Definition u_pix n := uci_pix (x n).
(** The enable register before instant [n], and the value that the pixel clock sees: the
    register as it was at the second last system clock edge. *)
Fixpoint enable_reg (n : nat) : bool :=
  match n with O => false | S m => if uci_sys (x m) && uci_we (x m) then uci_d (x m) else enable_reg m end.
Definition enable_seen (n : nat) : bool := match prev2 u_sys n with Some t => enable_reg t | None => false end.
(** A request for the count. *)
Definition request n := given u_sys (fun t => uci_re (x t)) n.
(** A pixel clock without a pixel. *)
Definition missing n := uci_pix (x n) && negb (uci_valid (x n)).

Lemma uc_S : forall n, uc_run x (S n) = uc_step (uc_run x n) (x n). Proof. reflexivity. Qed.
Lemma uc_regs : forall n, uc_en (uc_run x n) = enable_reg n /\ uc_e0 (uc_run x n) = match prev u_sys n with Some t => enable_reg t | None => false end /\
  uc_e1 (uc_run x n) = enable_seen n.
Proof.
  induction n as [|n (I1 & I2 & I3)]; [repeat split|]. rewrite uc_S. unfold uc_step; cbn [uc_en uc_e0 uc_e1]. rewrite I1, I2, I3.
  split; [reflexivity|]. unfold enable_seen, prev2. cbn [prev]. change (uci_sys (x n)) with (u_sys n). destruct (u_sys n); split; reflexivity.
Qed.
Lemma uc_ps_run : forall n, uc_ps (uc_run x n) = ps_run (cdc_inp u_sys u_pix (fun t => uci_re (x t))) n.
Proof. induction n as [|n IH]; [reflexivity|]. rewrite uc_S, ps_run_S. unfold uc_step; cbn [uc_ps]. rewrite IH. reflexivity. Qed.
Lemma uc_uf_S : forall n, uc_uf (uc_run x (S n)) = if u_pix n then uf_step (uc_uf (uc_run x n))
  {| ui_enable := enable_seen n; ui_update := seen u_sys u_pix (fun t => uci_re (x t)) n; ui_valid := uci_valid (x n) |} else uc_uf (uc_run x n).
Proof. intros n. rewrite uc_S. unfold uc_step; cbn [uc_uf]. destruct (uc_regs n) as (_ & _ & ->). rewrite uc_ps_run. reflexivity. Qed.

Lemma uc_counts : forall z u, z < u -> u_pix z = true -> enable_seen z = false -> (forall t, z < t < u -> u_pix t = true -> enable_seen t = true) ->
  uf_counter (uc_uf (uc_run x u)) = (Z.of_nat (occurrences missing (S z) (u - S z)) mod 2 ^ 32)%Z.
Proof.
  intros z u L PZ EZ. assert (G : forall d, (forall t, z < t < S z + d -> u_pix t = true -> enable_seen t = true) ->
    uf_counter (uc_uf (uc_run x (S z + d))) = (Z.of_nat (occurrences missing (S z) d) mod 2 ^ 32)%Z).
  { induction d as [|d IH]; intros H.
    - rewrite Nat.add_0_r, uc_uf_S, PZ. unfold uf_step; cbn [uf_counter ui_enable]. rewrite EZ. reflexivity.
    - rewrite Nat.add_succ_r, uc_uf_S. cbn [occurrences]. unfold missing at 2. change (uci_pix (x (S z + d))) with (u_pix (S z + d)).
      specialize (IH ltac:(intros; apply H; [lia|assumption])). destruct (u_pix (S z + d)) eqn:PX.
      + unfold uf_step; cbn [uf_counter ui_enable ui_valid]. rewrite (H (S z + d)) by (lia || exact PX). rewrite IH. cbn [andb].
        destruct (negb (uci_valid (x (S z + d)))); rewrite Nat2Z.inj_add; [|rewrite Z.add_0_r; reflexivity].
        unfold trunc. rewrite Z.add_mod_idemp_l by lia. reflexivity.
      + cbn [andb]. rewrite Nat.add_0_r. exact IH. }
  intros H. specialize (G (u - S z)). replace (S z + (u - S z)) with u in G by lia. apply G. exact H.
Qed.

(** The count that software reads: requested at [p], taken at the third pixel clock edge
    after that ([u]); it is the number of pixel clocks without a pixel since the counter
    was enabled, and stays until a later request arrives. *)
Theorem C105_underflow_read : forall p u z n,
  request p -> (forall q, request q -> q <> p -> separated u_pix p q) ->
  p < u -> u_pix u = true -> between u_pix p u = 2 ->
  z < u -> u_pix z = true -> enable_seen z = false -> (forall t, z < t < u -> u_pix t = true -> enable_seen t = true) ->
  u < n -> (forall q, request q -> p < q -> between u_pix q (S n) <= 2) ->
  uc_read x n = (Z.of_nat (occurrences missing (S z) (u - S z)) mod 2 ^ 32)%Z.
Proof.
  intros p u z n RP SEP PU XU BU ZU PZ EZ EN UN LATE.
  pose proof (C73_delivered u_sys u_pix (fun t => uci_re (x t)) p u RP SEP PU BU) as D.
  assert (QUIET : forall t, u < t <= n -> u_pix t = true -> seen u_sys u_pix (fun t => uci_re (x t)) t = false).
  { intros t T XT. destruct (seen u_sys u_pix (fun t => uci_re (x t)) t) eqn:SN; [|reflexivity]. exfalso.
    destruct (C73_nothing_else _ _ _ t SN) as (q & QT & RQ & BQ). destruct (Nat.lt_trichotomy q p) as [L|[L|L]].
    - destruct (SEP q RQ ltac:(lia)) as (s & SS & XS).
      assert (B : between u_pix q u <= between u_pix q t) by (apply between_le; lia).
      unfold between in B, BU, BQ. replace (u - S q) with ((s - S q) + (1 + ((p - s) + (u - S p)))) in B by lia. rewrite !occ_app in B.
      replace (S q + (s - S q)) with s in B by lia. replace (s + 1 + (p - s)) with (S p) in B by lia. cbn [occurrences] in B. rewrite Nat.add_0_r, XS in B. lia.
    - subst q. assert (t = u) by (apply (between_unique u_pix p); try assumption; lia). lia.
    - specialize (LATE q RQ L). assert (B : between u_pix q (S t) <= between u_pix q (S n)) by (apply between_le; lia).
      rewrite between_S in B by exact QT. rewrite XT in B. lia. }
  assert (G : forall d, u + d <= n -> uf_status (uc_uf (uc_run x (S (u + d)))) = uf_counter (uc_uf (uc_run x u))).
  { induction d as [|d IH]; intros LD; rewrite uc_uf_S.
    - rewrite Nat.add_0_r, XU. unfold uf_step; cbn [uf_status ui_update]. rewrite D. reflexivity.
    - rewrite Nat.add_succ_r. destruct (u_pix (S (u + d))) eqn:XT; [|apply IH; lia]. unfold uf_step; cbn [uf_status ui_update]. rewrite QUIET by (lia || exact XT). apply IH. lia. }
  unfold uc_read. pose proof (G (n - u) ltac:(lia)) as G1. pose proof (G (n - u - 1) ltac:(lia)) as G2.
  replace (S (u + (n - u))) with (S n) in G1 by lia. replace (S (u + (n - u - 1))) with n in G2 by lia.
  rewrite G1, G2, race_same. apply uc_counts; assumption.
Qed.
End C105.

(** Enabled at instant 2, every third pixel missing, request at 13; read at 20. *)
Definition ex_uc (n : nat) : uc_in :=
  {| uci_sys := true; uci_pix := Nat.even n; uci_we := Nat.eqb n 2; uci_d := true; uci_re := Nat.eqb n 13; uci_valid := negb (Nat.eqb (n mod 6) 0); uci_race := Z.of_nat n |}.
Example ex_uc_hyp : request ex_uc 13 /\ (forall q, request ex_uc q -> q <> 13 -> separated (u_pix ex_uc) 13 q) /\ u_pix ex_uc 18 = true /\ between (u_pix ex_uc) 13 18 = 2 /\
  u_pix ex_uc 4 = true /\ enable_seen ex_uc 4 = false /\ (forall t, 4 < t < 18 -> u_pix ex_uc t = true -> enable_seen ex_uc t = true) /\
  (forall q, request ex_uc q -> 13 < q -> between (u_pix ex_uc) q 21 <= 2).
Proof.
  assert (R : forall q, request ex_uc q -> q = 13). { intros q [_ H]. cbn in H. apply Nat.eqb_eq in H. exact H. }
  repeat split; try reflexivity; try (intros q H; apply R in H; lia).
  intros t T _. do 18 (destruct t as [|t]; [try lia; reflexivity|]). lia.
Qed.
Example ex_uc_read : uc_read ex_uc 20 = 2%Z /\ occurrences (missing ex_uc) 5 (18 - 5) = 2.
Proof. vm_compute. split; reflexivity. Qed.
(** A reading in the clock in which the count arrives may be a mixture. *)
Definition ex_uc_torn (n : nat) : uc_in :=
  {| uci_sys := true; uci_pix := true; uci_we := Nat.eqb n 0; uci_d := true; uci_re := Nat.eqb n 3 || Nat.eqb n 4; uci_valid := false; uci_race := 4%Z |}.
Example C105_torn : uf_status (uc_uf (uc_run ex_uc_torn 7)) = 3%Z /\ uf_status (uc_uf (uc_run ex_uc_torn 8)) = 4%Z /\ uc_read ex_uc_torn 7 = 7%Z.
Proof. vm_compute. repeat split. Qed.

Print Assumptions C103_only_measured_refuted.
Print Assumptions C103_settled_partial.
Print Assumptions C103_resolution_read_partial.
Print Assumptions C104_s6_exclusive.
Print Assumptions C104_s7_exclusive.
Print Assumptions C104_reported.
Print Assumptions C105_underflow_read.
