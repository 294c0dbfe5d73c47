(** Lemmas for C128: each delay line of S7CtlModel.v is one of TapModel.v in a finer time, in which the writes that win
    their race come half an instant earlier. *)
From Coq Require Import ZArith List Bool Arith Lia.
From Verif Require Import Hdl Trace CdcModel CdcProofs TapModel TapProofs S7CtlModel.
Import ListNotations.
Open Scope nat_scope.

Lemma race_split : forall a b i r s, ps_step_r a b i r s = ps_step true b (a && i && negb r) (ps_step true false (a && i && r) s).
Proof. intros a b i r [t m0 m1 r0]. unfold ps_step_r, ps_step. cbn [ps_t ps_m0 ps_m1 ps_r]. destruct a, b, i, r; reflexivity. Qed.

Lemma prev_double : forall (e f : nat -> bool), (forall n, f (2 * n) = false) -> (forall n, f (2 * n + 1) = e n) ->
  forall n, prev f (2 * n) = option_map (fun k => 2 * k + 1) (prev e n).
Proof.
  intros e f F0 F1. induction n as [|n IH]; [reflexivity|]. replace (2 * S n) with (S (S (2 * n))) by lia. cbn [prev].
  rewrite F0. replace (S (2 * n)) with (2 * n + 1) by lia. rewrite F1. destruct (e n); [reflexivity|]. exact IH.
Qed.
Lemma prev_double1 : forall (e f : nat -> bool), (forall n, f (2 * n) = false) -> (forall n, f (2 * n + 1) = e n) ->
  forall n, prev f (2 * n + 1) = option_map (fun k => 2 * k + 1) (prev e n).
Proof. intros e f F0 F1 n. replace (2 * n + 1) with (S (2 * n)) by lia. cbn [prev]. rewrite F0. apply (prev_double e f F0 F1). Qed.
Lemma prev3_double : forall (e f : nat -> bool), (forall n, f (2 * n) = false) -> (forall n, f (2 * n + 1) = e n) ->
  forall n, prev3 f (2 * n) = option_map (fun k => 2 * k + 1) (prev3 e n).
Proof.
  intros e f F0 F1 n. unfold prev3, prev2. rewrite (prev_double e f F0 F1). destruct (prev e n) as [a|]; cbn [option_map]; [|reflexivity].
  rewrite (prev_double1 e f F0 F1). destruct (prev e a) as [b|]; cbn [option_map]; [|reflexivity]. apply (prev_double1 e f F0 F1).
Qed.
(** A sequence of which every element lies in one of the two halves of its instant. *)
Lemma collect_double : forall (A : Type) (g f : nat -> option A),
  (forall n, (f (2 * n) = g n /\ f (2 * n + 1) = None) \/ (f (2 * n) = None /\ f (2 * n + 1) = g n)) ->
  forall n, collect f 0 (2 * n) = collect g 0 n.
Proof.
  intros A g f H. induction n as [|n IH]; [reflexivity|]. replace (2 * S n) with (S (S (2 * n))) by lia. cbn [collect Nat.add]. rewrite IH.
  replace (S (2 * n)) with (2 * n + 1) by lia. destruct (H n) as [[-> ->] | [-> ->]]; destruct (g n); cbn; rewrite ?app_nil_r; reflexivity.
Qed.
Lemma prev3_near : forall e n t, prev3 e n = Some t -> t < n /\ e t = true /\ occurrences e t (n - t) = 3.
Proof.
  intros e n t. unfold prev3, prev2. destruct (prev e n) as [a|] eqn:A; [|discriminate]. destruct (prev e a) as [b|] eqn:B; [|discriminate]. intros C.
  apply prev_some in A as (A1 & A2 & A3). apply prev_some in B as (B1 & B2 & B3). apply prev_some in C as (C1 & C2 & C3).
  split; [lia|]. split; [exact C2|].
  replace (n - t) with (1 + ((b - S t) + (1 + ((a - S b) + (1 + (n - S a)))))) by lia. rewrite !occ_app. cbn [occurrences]. rewrite !Nat.add_0_r.
  replace (t + 1 + (b - S t)) with b by lia. replace (b + 1 + (a - S b)) with a by lia.
  rewrite A2, B2, C2, (occ_zero e (t + 1)), (occ_zero e (b + 1)), (occ_zero e (a + 1)); [lia| | |]; intros k K; [apply A3|apply B3|apply C3]; lia.
Qed.
Lemma prev3_few : forall e n, prev3 e n = None -> occurrences e 0 n <= 2.
Proof.
  intros e n H. destruct (Nat.le_gt_cases (occurrences e 0 n) 2) as [|L]; [assumption|]. exfalso.
  assert (K : forall n k, S k <= occurrences e 0 n -> exists b, prev e n = Some b /\ k <= occurrences e 0 b).
  { induction n0 as [|m IH]; intros k Hk; [cbn in Hk; lia|]. cbn [prev]. cbn [occurrences Nat.add] in Hk. destruct (e m).
    - exists m. split; [reflexivity|]. lia.
    - apply IH. lia. }
  destruct (K n 2 L) as (b & B & HB). destruct (K b 1 HB) as (c & C & HC). destruct (K c 0 HC) as (d & D & _).
  unfold prev3, prev2 in H. rewrite B, C, D in H. discriminate.
Qed.

Section Fine.
Variable x : nat -> s7_in.
(** Bits of the line's step up and step down. *)
Variables up dn : Z.
Let won k n := s7_sys (x n) && s7_cmd k (x n) && bit (s7_race (x n)) k.
Let lost k n := s7_sys (x n) && s7_cmd k (x n) && negb (bit (s7_race (x n)) k).
Definition fine (m : nat) : tp_in :=
  let n := Nat.div2 m in
  if Nat.odd m then {| tpi_sys := true; tpi_pix := s7_pix (x n); tpi_rst := lost 0 n; tpi_inc := lost up n; tpi_dec := lost dn n; tpi_rt := false; tpi_rd := 0%Z |}
  else {| tpi_sys := true; tpi_pix := false; tpi_rst := won 0 n; tpi_inc := won up n; tpi_dec := won dn n; tpi_rt := false; tpi_rd := 0%Z |}.
Lemma fine_even : forall n, fine (2 * n) = {| tpi_sys := true; tpi_pix := false; tpi_rst := won 0 n; tpi_inc := won up n; tpi_dec := won dn n; tpi_rt := false; tpi_rd := 0%Z |}.
Proof. intros n. unfold fine. rewrite Nat.odd_mul, Nat.odd_2. cbn [andb]. rewrite Nat.div2_double. reflexivity. Qed.
Lemma fine_odd : forall n, fine (2 * n + 1) = {| tpi_sys := true; tpi_pix := s7_pix (x n); tpi_rst := lost 0 n; tpi_inc := lost up n; tpi_dec := lost dn n; tpi_rt := false; tpi_rd := 0%Z |}.
Proof.
  intros n. unfold fine. replace (2 * n + 1) with (S (2 * n)) by lia. rewrite Nat.odd_succ, Nat.even_mul. cbn [Nat.even orb]. rewrite Nat.div2_succ_double. reflexivity.
Qed.

Variables (sinc sdec : s7_st -> ps_st) (cnt : s7_st -> Z).
Hypothesis I0 : sinc s7_init = ps_init /\ sdec s7_init = ps_init /\ cnt s7_init = 0%Z.
Hypothesis Iinc : forall s i, sinc (s7_step s i) = s7_ps up i (sinc s).
Hypothesis Idec : forall s i, sdec (s7_step s i) = s7_ps dn i (sdec s).
Hypothesis Icnt : forall s i, cnt (s7_step s i) = if s7_pix i then s7_tap (s7_rst s) (sinc s) (sdec s) (cnt s) else cnt s.
Lemma fine_run : forall n, tp_rst (tp_run fine (2 * n)) = s7_rst (s7_run x n) /\ tp_inc (tp_run fine (2 * n)) = sinc (s7_run x n) /\
  tp_dec (tp_run fine (2 * n)) = sdec (s7_run x n) /\ tp_cnt (tp_run fine (2 * n)) = cnt (s7_run x n).
Proof.
  induction n as [|n (J1 & J2 & J3 & J4)].
  { destruct I0 as (A & B & C). change (s7_run x 0) with s7_init. rewrite A, B, C. repeat split. }
  assert (ST : s7_run x (S n) = s7_step (s7_run x n) (x n)) by reflexivity. rewrite ST, Iinc, Idec, Icnt.
  replace (2 * S n) with (S (S (2 * n))) by lia.
  assert (FT : tp_run fine (S (S (2 * n))) = tp_step (tp_step (tp_run fine (2 * n)) (fine (2 * n))) (fine (2 * n + 1))) by (rewrite Nat.add_1_r; reflexivity).
  rewrite FT, fine_even, fine_odd. unfold s7_step. cbn [s7_rst].
  unfold tp_step at 1. cbn [tp_rst tp_inc tp_dec tp_cnt tpi_sys tpi_pix tpi_rst tpi_inc tpi_dec].
  unfold tp_step. cbn [tp_rst tp_inc tp_dec tp_cnt tpi_sys tpi_pix tpi_rst tpi_inc tpi_dec].
  rewrite J1, J2, J3, J4. unfold s7_ps. rewrite !race_split. repeat split.
Qed.

(** Words: at most one of the line's three bits. *)
Let any n := s7_sys (x n) && (s7_cmd 0 (x n) || s7_cmd up (x n) || s7_cmd dn (x n)).
Hypothesis ONE : forall n, s7_sys (x n) = true ->
  (s7_cmd 0 (x n) = true -> s7_cmd up (x n) = false /\ s7_cmd dn (x n) = false) /\ (s7_cmd up (x n) = true -> s7_cmd dn (x n) = false).
Hypothesis SPACED : forall p q, p < q -> any p = true -> any q = true -> exists t, p < t < q /\ s7_pix (x t) = true.
Definition line_cmd (n : nat) : option (bool * bool * bool) := if any n then Some (s7_cmd 0 (x n), s7_cmd up (x n), s7_cmd dn (x n)) else None.
(** The write at [n] wins its race. *)
Definition line_won (n : nat) : bool := won 0 n || won up n || won dn n.

Let f_any m := tpi_sys (fine m) && tpi_rst (fine m) || tpi_sys (fine m) && tpi_inc (fine m) || tpi_sys (fine m) && tpi_dec (fine m).
Let f_cmd m : option (bool * bool * bool) := if f_any m then Some (tpi_sys (fine m) && tpi_rst (fine m), tpi_sys (fine m) && tpi_inc (fine m), tpi_sys (fine m) && tpi_dec (fine m)) else None.
Lemma f_halves : forall n, f_cmd (2 * n) = (if line_won n then line_cmd n else None) /\ f_cmd (2 * n + 1) = (if line_won n then None else line_cmd n).
Proof.
  intros n. unfold f_cmd, f_any. rewrite fine_even, fine_odd. cbn [tpi_sys tpi_pix tpi_rst tpi_inc tpi_dec andb]. unfold line_won, line_cmd, any, won, lost.
  specialize (ONE n). destruct (s7_sys (x n)); cbn [andb]; [|split; reflexivity]. destruct (ONE eq_refl) as [O1 O2].
  destruct (s7_cmd 0 (x n)); [destruct (O1 eq_refl) as [-> ->]|destruct (s7_cmd up (x n)); [rewrite (O2 eq_refl)|destruct (s7_cmd dn (x n))]];
    destruct (bit (s7_race (x n)) 0), (bit (s7_race (x n)) up), (bit (s7_race (x n)) dn); split; reflexivity.
Qed.
Lemma f_half : forall m, f_any m = true -> any (Nat.div2 m) = true.
Proof.
  intros m H. assert (C : f_cmd m <> None) by (unfold f_cmd; rewrite H; discriminate).
  destruct (Nat.Even_or_Odd m) as [[n E] | [n E]]; destruct (f_halves n) as [H0 H1].
  - rewrite E in *. rewrite H0 in C. rewrite Nat.div2_double. unfold line_cmd in C. destruct (any n); [reflexivity|]. destruct (line_won n); tauto.
  - rewrite E in *. rewrite H1 in C. replace (2 * n + 1) with (S (2 * n)) by lia. rewrite Nat.div2_succ_double. unfold line_cmd in C. destruct (any n); [reflexivity|]. destruct (line_won n); tauto.
Qed.
Lemma f_apart : forall p q, p < q -> f_any p = true -> f_any q = true -> exists t, p < t <= q /\ tpi_pix (fine t) = true.
Proof.
  intros p q L P Q. assert (NE : Nat.div2 p <> Nat.div2 q).
  { intros E. assert (P2 : p = 2 * Nat.div2 p \/ p = 2 * Nat.div2 p + 1) by (pose proof (Nat.div2_odd p) as D; destruct (Nat.odd p); cbn [Nat.b2n] in D; lia).
    assert (Q2 : q = 2 * Nat.div2 q \/ q = 2 * Nat.div2 q + 1) by (pose proof (Nat.div2_odd q) as D; destruct (Nat.odd q); cbn [Nat.b2n] in D; lia).
    assert (PE : p = 2 * Nat.div2 p) by lia. assert (QE : q = 2 * Nat.div2 p + 1) by lia.
    destruct (f_halves (Nat.div2 p)) as [H0 H1]. unfold f_cmd in H0, H1. rewrite <- PE, P in H0. rewrite <- QE, Q in H1. destruct (line_won (Nat.div2 p)); discriminate. }
  pose proof (Nat.div2_odd p) as DP. pose proof (Nat.div2_odd q) as DQ.
  assert (LT : Nat.div2 p < Nat.div2 q) by (destruct (Nat.odd p), (Nat.odd q); cbn [Nat.b2n] in *; lia).
  destruct (SPACED _ _ LT (f_half p P) (f_half q Q)) as (t & T & E). exists (2 * t + 1). split; [destruct (Nat.odd p), (Nat.odd q); cbn [Nat.b2n] in *; lia|].
  rewrite fine_odd. exact E.
Qed.
(** The tap at every instant. *)
Lemma line_tap : forall n, cnt (s7_run x n) =
  match prev3 (fun n => s7_pix (x n)) n with
  | None => 0%Z
  | Some t => fold_left ap (collect line_cmd 0 (if line_won t then S t else t)) 0%Z
  end.
Proof.
  intros n. destruct (fine_run n) as (_ & _ & _ & <-). rewrite (tap_is fine f_apart).
  rewrite (prev3_double (fun n => s7_pix (x n)) (fun m => tpi_pix (fine m))); [|intros k; rewrite fine_even; reflexivity|intros k; rewrite fine_odd; reflexivity].
  destruct (prev3 (fun n => s7_pix (x n)) n) as [t|]; cbn [option_map upto]; [|reflexivity]. f_equal.
  change (collect f_cmd 0 (2 * t + 1) = collect line_cmd 0 (if line_won t then S t else t)).
  replace (2 * t + 1) with (S (2 * t)) by lia. cbn [collect Nat.add]. rewrite (collect_double _ line_cmd f_cmd).
  - destruct (f_halves t) as [-> _]. destruct (line_won t); [reflexivity|]. apply app_nil_r.
  - intros k. destruct (f_halves k) as [-> ->]. destruct (line_won k); auto.
Qed.
End Fine.
