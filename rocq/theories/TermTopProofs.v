(** Lemmas for C130: the two sides of the terminal, each in its own clock. *)
From Coq Require Import ZArith List Bool Lia Arith.
From Verif Require Import Hdl Trace CharSyncProofs CdcProofs TerminalModel TerminalProofs TerminalProps TermTopModel.
Import ListNotations.
Open Scope Z_scope.

Lemma mix_range : forall new a b, 0 <= mix new a b < 256.
Proof.
  intros new a b. unfold mix. pose proof (of_bits_bound (map (fun k => Z.testbit (if nth k new false then b else a) (Z.of_nat k)) (seq 0 8))) as H.
  rewrite map_length, seq_length in H. exact H.
Qed.
Lemma mix_same : forall new a, 0 <= a < 256 -> mix new a a = a.
Proof.
  intros new a A. apply Z.bits_inj'. intros n N. unfold mix. replace n with (Z.of_nat (Z.to_nat n)) by lia. rewrite testbit_of_bits.
  set (k := Z.to_nat n). destruct (Nat.lt_ge_cases k 8) as [L|L].
  - rewrite (nth_indep _ false ((fun k => Z.testbit (if nth k new false then a else a) (Z.of_nat k)) 0%nat)) by (rewrite map_length, seq_length; exact L).
    rewrite (map_nth (fun k => Z.testbit (if nth k new false then a else a) (Z.of_nat k))), seq_nth by exact L. cbn [Nat.add]. destruct (nth k new false); reflexivity.
  - rewrite nth_overflow by (rewrite map_length, seq_length; exact L). symmetry.
    destruct (Z.eq_dec a 0) as [-> |NZ]; [apply Z.testbit_0_l|]. apply Z.bits_above_log2; [lia|].
    apply Z.lt_le_trans with 8; [|lia]. apply Z.log2_lt_pow2; [lia|]. change (2 ^ 8) with 256. lia.
Qed.

Section Both.
Variable m0 : Z -> Z.
Hypothesis B0 : forall a, 0 <= m0 a < 256.
Variable i : nat -> tt_in.
Let st := tt_run m0 i.
Let sys t := tt_sys (i t).
Let vga t := tt_vga (i t).
(** The bus in sys clocks, and the instants of the vga clocks. *)
Variable wb : nat -> wb_in.
Hypothesis HW : forall t, sys t = true -> tt_wb (i t) = wb (occurrences sys 0 t).
Variable E : nat -> nat.
Hypothesis HE : forall n, vga (E n) = true /\ occurrences vga 0 (E n) = n.

Lemma tt_S : forall t, st (S t) = tt_step (st t) (i t).
Proof. reflexivity. Qed.
Lemma tt_bus : forall t, tt_tw (st t) = tw_run m0 wb (occurrences sys 0 t).
Proof.
  induction t as [|t IH]; [reflexivity|]. rewrite tt_S. cbn [tt_step tt_tw occurrences]. rewrite Nat.add_0_l. change (sys t) with (tt_sys (i t)).
  destruct (tt_sys (i t)) eqn:Q.
  - rewrite (HW t Q), IH. rewrite Nat.add_1_r. reflexivity.
  - rewrite Nat.add_0_r. exact IH.
Qed.
Lemma tw_bytes : forall n a, 0 <= tw_mem (tw_run m0 wb n) a < 256 /\ 0 <= tw_dat (tw_run m0 wb n) < 256.
Proof.
  induction n as [|n IH]; intros a; [cbn; specialize (B0 a); lia|].
  change (tw_run m0 wb (S n)) with (tw_step (tw_run m0 wb n) (wb n)). cbn [tw_step tw_mem tw_dat].
  pose proof (trunc_range 8 (wbi_dat (wb n)) ltac:(lia)) as T. change (2 ^ 8) with 256 in T. split.
  - destruct (tw_we _); [|apply IH]. destruct (a =? _); [apply (IH 0)|apply IH].
  - destruct (_ && _); [exact T|apply (IH 0)].
Qed.
(** What the video side reads in its clock [n]. *)
Definition tt_mem (n : nat) : Z -> Z := tt_seen (st (E n)) (i (E n)).
Lemma tt_mem_bytes : forall n a, 0 <= tt_mem n a < 256.
Proof.
  intros n a. unfold tt_mem, tt_seen. cbv zeta. destruct (tt_sys _); [apply mix_range|]. rewrite tt_bus. apply tw_bytes.
Qed.
Lemma tt_video_at : forall t, tt_tm (st t) = tm_run tt_mem (occurrences vga 0 t).
Proof.
  induction t as [|t IH]; [reflexivity|]. rewrite tt_S. cbn [tt_step tt_tm occurrences]. rewrite Nat.add_0_l. change (vga t) with (tt_vga (i t)).
  destruct (tt_vga (i t)) eqn:Q.
  - rewrite IH, Nat.add_1_r. unfold tm_run. cbn [at_]. unfold tt_mem. f_equal.
    assert (ET : E (occurrences vga 0 t) = t); [|rewrite ET; reflexivity].
    destruct (HE (occurrences vga 0 t)) as [E1 E2]. set (e := E (occurrences vga 0 t)) in *.
    assert (M : forall a b, (a < b)%nat -> vga a = true -> (occurrences vga 0 a < occurrences vga 0 b)%nat).
    { intros a b AB V. replace b with (a + S (b - a - 1))%nat by lia. rewrite occ_app.
      change (S (b - a - 1)) with (1 + (b - a - 1))%nat. rewrite (occ_app vga (0 + a)). cbn [occurrences]. rewrite Nat.add_0_r. cbn [Nat.add]. rewrite V. lia. }
    destruct (Nat.lt_total e t) as [L|[EQ|L]]; [|exact EQ|].
    + pose proof (M e t L E1). lia.
    + pose proof (M t e L Q). lia.
  - rewrite Nat.add_0_r. exact IH.
Qed.
Lemma tt_video : forall n, tt_tm (st (E n)) = tm_run tt_mem n.
Proof. intros n. rewrite tt_video_at, (proj2 (HE n)). reflexivity. Qed.

Hypothesis C : compliant m0 wb.
Hypothesis R : in_ram wb.
(** Sys clocks before vga clock [n]. *)
Definition before (n : nat) : nat := occurrences sys 0 (E n).
Lemma tt_mem_is : forall n a v, 0 <= a < 8896 -> memory m0 wb (before n) a = v -> memory m0 wb (S (before n)) a = v -> tt_mem n a = v.
Proof.
  intros n a v A H1 H2. unfold tt_mem, tt_seen. cbv zeta. rewrite tt_bus. fold (before n).
  rewrite <- (C57_contents m0 wb C R) in H1, H2 by exact A.
  destruct (tt_sys (i (E n))) eqn:Q; [|exact H1].
  pose proof (HW (E n) Q) as W. fold (before n) in W. rewrite W. change (tw_step (tw_run m0 wb (before n)) (wb (before n))) with (tw_run m0 wb (S (before n))).
  rewrite H1, H2. apply mix_same. rewrite <- H1. apply tw_bytes.
Qed.
End Both.
