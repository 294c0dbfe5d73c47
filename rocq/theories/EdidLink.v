(** From clocks to samples of the bus. *)
From Coq Require Import ZArith List Bool Lia Arith.
From Verif Require Import Hdl EdidModel EdidSpec EdidSettle EdidProofs.
Import ListNotations.
Open Scope nat_scope.

Section L.
Variable mem : Z -> Z.
Variable ab : Z.
Variable i : nat -> ed_in.
Notation run := (edid_run mem ab i).

Lemma run_S : forall n, run (S n) = edid_step mem ab (run n) (i n).
Proof. reflexivity. Qed.

Lemma count_run : forall n, es_count (run n) = (Z.of_nat n mod 64)%Z.
Proof.
  induction n as [|n IH]; [reflexivity|]. rewrite run_S. cbn [edid_step es_count]. rewrite IH.
  unfold trunc. change (2 ^ 6)%Z with 64%Z. rewrite Zplus_mod_idemp_l. f_equal. lia.
Qed.

Lemma carry_run : forall n, es_carry (run (S n)) = (Z.of_nat (S n) mod 64 =? 0)%Z.
Proof.
  intros n. rewrite run_S. cbn [edid_step es_carry]. rewrite count_run.
  pose proof (Z.mod_pos_bound (Z.of_nat n) 64 ltac:(lia)) as B.
  replace (Z.of_nat (S n) mod 64)%Z with ((Z.of_nat n mod 64 + 1) mod 64)%Z
    by (rewrite Zplus_mod_idemp_l; f_equal; lia).
  set (r := (Z.of_nat n mod 64)%Z) in *. clearbody r.
  assert (K : (0 <= r < 0 + Z.of_nat 64)%Z) by (cbn; lia).
  apply eqb_prop. exact (forallb_zrange 0 64 (fun r => eqb (Z.testbit (r + 1) 6) ((r + 1) mod 64 =? 0)%Z) eq_refl r K).
Qed.

(** Clock in which sample [j] of the bus is taken, and its value. *)
Definition smp_clk (j : nat) : nat := 64 * j + 62.
Definition smp (j : nat) : obs := (edi_scl (i (smp_clk j)), ed_line (run (smp_clk j)) (i (smp_clk j))).
(** State before sample [j] is processed. *)
Definition Cj (j : nat) : ed_core := es_core (run (64 * j + 65)).

Lemma sync_run : forall n, es_scl1 (run (S (S n))) = edi_scl (i n) /\ es_sda1 (run (S (S n))) = ed_line (run n) (i n).
Proof. intros n. split; reflexivity. Qed.

Lemma sampled : forall j d, d < 64 ->
  es_scl_i (run (64 * j + 65 + d)) = fst (smp j) /\ es_sda_i (run (64 * j + 65 + d)) = snd (smp j).
Proof.
  intros j. induction d as [|d IH]; intros Hd.
  - replace (64 * j + 65 + 0) with (S (64 * j + 64)) by lia. rewrite run_S. cbn [edid_step es_scl_i es_sda_i].
    assert (C : es_carry (run (64 * j + 64)) = true).
    { replace (64 * j + 64) with (S (64 * j + 63)) by lia. rewrite carry_run. apply Z.eqb_eq.
      replace (Z.of_nat (S (64 * j + 63))) with (0 + (Z.of_nat j + 1) * 64)%Z by lia. rewrite Z.mod_add by lia. reflexivity. }
    rewrite C. replace (64 * j + 64) with (S (S (64 * j + 62))) by lia.
    destruct (sync_run (64 * j + 62)) as [-> ->]. split; reflexivity.
  - replace (64 * j + 65 + S d) with (S (64 * j + 65 + d)) by lia. rewrite run_S. cbn [edid_step es_scl_i es_sda_i].
    assert (C : es_carry (run (64 * j + 65 + d)) = false).
    { replace (64 * j + 65 + d) with (S (64 * j + 64 + d)) by lia. rewrite carry_run. apply Z.eqb_neq.
      replace (Z.of_nat (S (64 * j + 64 + d))) with ((Z.of_nat d + 1) + (Z.of_nat j + 1) * 64)%Z by lia.
      rewrite Z.mod_add by lia. rewrite Z.mod_small by lia. lia. }
    rewrite C. apply IH. lia.
Qed.

Lemma core_steps : forall j, (forall t, 64 * j + 65 <= t < 64 * j + 129 -> edi_hpd (i t) = true) ->
  forall d, d <= 64 ->
  es_core (run (64 * j + 65 + d)) = steps d (ed_step mem ab true (fst (smp j)) (snd (smp j))) (Cj j).
Proof.
  intros j Hh. induction d as [|d IH]; intros Hd.
  - rewrite Nat.add_0_r. reflexivity.
  - replace (64 * j + 65 + S d) with (S (64 * j + 65 + d)) by lia. rewrite run_S, steps_r. cbn [edid_step es_core].
    rewrite IH by lia. destruct (sampled j d ltac:(lia)) as [-> ->]. rewrite Hh by lia. reflexivity.
Qed.

Lemma Cj_S : forall j, (forall t, 64 * j + 65 <= t < 64 * j + 129 -> edi_hpd (i t) = true) ->
  Cj (S j) = bstep mem ab (Cj j) (smp j) /\
  smp (S j) = (edi_scl (i (smp_clk (S j))), line (Cj (S j)) (edi_sda (i (smp_clk (S j))))).
Proof.
  intros j Hh. assert (E : Cj (S j) = bstep mem ab (Cj j) (smp j)).
  { unfold Cj at 1. replace (64 * S j + 65) with (64 * j + 65 + 64) by lia.
    rewrite core_steps by (assumption || lia). apply steps_bstep. lia. }
  split; [exact E|]. unfold smp at 1. f_equal. unfold ed_line, line. f_equal. f_equal. f_equal.
  rewrite E. unfold smp_clk. replace (64 * S j + 62) with (64 * j + 65 + 61) by lia.
  rewrite core_steps by (assumption || lia). apply steps_bstep. lia.
Qed.

(** Levels given by the master at the sampling clocks. *)
Definition msmp (j : nat) : obs := (edi_scl (i (smp_clk j)), edi_sda (i (smp_clk j))).

Lemma trace_link : forall n j, (forall t, 64 * j + 1 <= t -> edi_hpd (i t) = true) ->
  1 <= j ->
  map smp (seq j n) = btrace mem ab (Cj j) (map msmp (seq j n)) /\
  Cj (j + n) = bend mem ab (Cj j) (map msmp (seq j n)).
Proof.
  induction n as [|n IH]; intros j Hh Hj.
  - rewrite Nat.add_0_r. split; reflexivity.
  - assert (Es : smp j = (edi_scl (i (smp_clk j)), line (Cj j) (edi_sda (i (smp_clk j))))).
    { destruct j as [|j]; [lia|]. apply Cj_S. intros t Ht. apply Hh. lia. }
    assert (Ec : Cj (S j) = bstep mem ab (Cj j) (smp j)) by (apply Cj_S; intros t Ht; apply Hh; lia).
    destruct (IH (S j)) as [A B]; [intros t Ht; apply Hh; lia | lia |].
    cbn [seq map btrace bend]. unfold msmp at 1 3. cbn [btrace bend]. rewrite <- Es, <- Ec.
    split; [f_equal; exact A |]. replace (j + S n) with (S j + n) by lia. exact B.
Qed.

(** Idle bus seen in two consecutive samples: the slave is ready for a start. *)
Lemma idle : forall j, (forall t, 64 * j + 1 <= t -> edi_hpd (i t) = true) ->
  smp j = (true, true) -> smp (S j) = (true, true) ->
  let c := Cj (S (S j)) in
  settled mem ab c /\ ec_scl_r c = true /\ ec_sda_r c = true /\ ec_drv c = false.
Proof.
  intros j Hh S0 S1 c.
  destruct (Cj_S j) as [E1 L1]; [intros t Ht; apply Hh; lia|].
  destruct (Cj_S (S j)) as [E2 L2]; [intros t Ht; apply Hh; lia|].
  assert (Ec : c = Cj (S j)).
  { unfold c. rewrite E2, S1. apply settled_bstep; rewrite E1.
    - apply bstep_settled. - rewrite bstep_scl, S0. reflexivity. - rewrite bstep_sda, S0. reflexivity. }
  rewrite Ec. repeat split.
  - rewrite E1. apply bstep_settled.
  - rewrite E1, bstep_scl, S0. reflexivity.
  - rewrite E1, bstep_sda, S0. reflexivity.
  - rewrite S1 in L1. injection L1 as _ L1. unfold line in L1. symmetry in L1.
    apply andb_true_iff in L1. destruct L1 as [_ L1]. apply negb_true_iff in L1. exact L1.
Qed.
End L.
