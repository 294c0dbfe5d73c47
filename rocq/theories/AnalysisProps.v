(** Final theorems about the analysis stage: C18, C19, C20, C21, C22, C23. *)
From Coq Require Import ZArith List Bool Lia Arith.
From Verif Require Import Hdl Trace AnalysisModel.
Import ListNotations.
Open Scope nat_scope.

(** ** C18 *)

(** [hs], [vs]: true when the source's sync is active; [ph], [pv]: true when
    the source uses active-low polarity.  [t0] is any clock in which DE falls. *)
Theorem C18_sync_polarity :
  forall (s0 : sp_st) (i : nat -> sp_in) (hs vs : nat -> bool) (ph pv : bool),
  (forall t, spi_c (i t) = (xorb (hs t) ph, xorb (vs t) pv)) ->
  (forall t, spi_de (i t) = true -> spi_de (i (S t)) = false -> hs (S t) = false /\ vs (S t) = false) ->
  forall t0, spi_de (i t0) = true -> spi_de (i (S t0)) = false ->
  forall n, S t0 <= n ->
  let s := at_ sp_step s0 i (S n) in
  sp_hsync s = hs n /\ sp_vsync s = vs n /\ sp_de s = spi_de (i n) /\ sp_valid s = spi_valid (i n) /\
  (sp_b s, sp_g s, sp_r s) = spi_d (i n).
Proof.
  intros s0 i hs vs ph pv Hc Hin t0 D1 D0.
  assert (POL : forall n, S t0 <= n -> sp_pol (at_ sp_step s0 i (S n)) = (ph, pv)).
  { intros n Hn. induction Hn as [|n Hn IH].
    - cbn [at_]. unfold sp_step at 1. destruct (spi_d (i (S t0))) as [[d0 d1] d2]. cbn [sp_pol].
      unfold sp_step at 1. destruct (spi_d (i t0)) as [[e0 e1] e2]. cbn [sp_de].
      rewrite D1, D0. cbn [negb andb]. rewrite Hc. destruct (Hin t0 D1 D0) as [-> ->].
      destruct ph, pv; reflexivity.
    - cbn [at_] in *. unfold sp_step at 1. destruct (spi_d (i (S n))) as [[d0 d1] d2]. cbn [sp_pol].
      assert (E : sp_de (sp_step (at_ sp_step s0 i n) (i n)) = spi_de (i n))
        by (unfold sp_step; destruct (spi_d (i n)) as [[? ?] ?]; reflexivity).
      rewrite E, IH. destruct (spi_de (i n)) eqn:A; [|reflexivity].
      destruct (spi_de (i (S n))) eqn:B; [reflexivity|]. cbn [negb andb].
      rewrite Hc. destruct (Hin n A B) as [-> ->]. destruct ph, pv; reflexivity. }
  intros n Hn s. unfold s. cbn [at_]. destruct n as [|n]; [lia|].
  assert (E : sp_de (at_ sp_step s0 i (S n)) = spi_de (i n))
    by (cbn [at_]; unfold sp_step at 1; destruct (spi_d (i n)) as [[? ?] ?]; reflexivity).
  unfold sp_step. fold sp_step. destruct (spi_d (i (S n))) as [[d0 d1] d2] eqn:Ed.
  unfold sp_hsync, sp_vsync. cbn [sp_de sp_valid sp_b sp_g sp_r sp_c].
  rewrite E. split; [|split; [|repeat split]].
  - destruct (spi_de (i n)) eqn:A; destruct (spi_de (i (S n))) eqn:B; cbn [negb andb];
      try (destruct (Hin n A B) as [-> _]; reflexivity).
    all: destruct (Nat.eq_dec (S n) (S t0)) as [X|X]; [injection X as ->; congruence|].
    all: rewrite POL by lia; rewrite Hc; cbn; destruct (hs (S n)), ph; reflexivity.
  - destruct (spi_de (i n)) eqn:A; destruct (spi_de (i (S n))) eqn:B; cbn [negb andb];
      try (destruct (Hin n A B) as [_ ->]; reflexivity).
    all: destruct (Nat.eq_dec (S n) (S t0)) as [X|X]; [injection X as ->; congruence|].
    all: rewrite POL by lia; rewrite Hc; cbn; destruct (vs (S n)), pv; reflexivity.
Qed.
Print Assumptions C18_sync_polarity.

(** A source with active-low hsync and active-high vsync: 4-pixel lines, hsync
    active in clocks 6,7 of each 10-clock line. *)
Definition ex_sp (t : nat) : sp_in :=
  {| spi_valid := true; spi_de := t mod 10 <? 4;
     spi_c := (xorb ((6 <=? t mod 10) && (t mod 10 <? 8)) true, xorb false false); spi_d := (1, 2, 3)%Z |}.
Example ex_polarity :
  map (fun n => sp_hsync (at_ sp_step sp_init ex_sp n)) (seq 5 10)
  = [false; false; true; true; false; false; false; false; false; false].
Proof. vm_compute. reflexivity. Qed.

(** ** C19 *)

Section Res.
Variable nbits : Z.
Hypothesis Hb : (0 <= nbits)%Z.
Variable i : nat -> rd_in.
Let st := at_ (rd_step nbits) rd_init i.
Let de t := rdi_de (i t).
Let vsync t := rdi_vsync (i t).
Let valid t := rdi_valid (i t).

Lemma rd_de_r_eq : forall n, rd_de_r (st n) = match n with O => false | S k => de k end.
Proof. destruct n; reflexivity. Qed.

Lemma rd_vs_r_eq : forall n, rd_vs_r (st n) = match n with O => false | S k => vsync k end.
Proof. destruct n; reflexivity. Qed.

Lemma pn_de_eq : forall n, negb (rdi_de (i n)) && rd_de_r (st n) = falls de n.
Proof. intros n. rewrite rd_de_r_eq. reflexivity. Qed.

Lemma p_vs_eq : forall n, rdi_vsync (i n) && negb (rd_vs_r (st n)) = rises vsync n.
Proof. intros n. rewrite rd_vs_r_eq. reflexivity. Qed.

Lemma trunc_succ : forall k, trunc nbits (trunc nbits k + 1) = trunc nbits (k + 1).
Proof. intros k. unfold trunc. rewrite Zplus_mod_idemp_l. reflexivity. Qed.

Lemma hc_run : forall a L, (match a with O => true | S k => negb (de k) end = true) ->
  (forall t, a <= t < a + L -> de t = true /\ valid t = true) ->
  rd_hc (st (a + L)) = trunc nbits (Z.of_nat L).
Proof.
  intros a L Ha. induction L as [|L IH]; intros H.
  - rewrite Nat.add_0_r. unfold trunc. rewrite Z.mod_0_l by (apply Z.pow_nonzero; lia).
    destruct a as [|a]; [reflexivity|]. unfold st. cbn [at_ rd_step rd_hc]. apply negb_true_iff in Ha.
    unfold de in Ha. rewrite Ha, andb_false_r. reflexivity.
  - rewrite Nat.add_succ_r. change (st (S (a + L))) with (rd_step nbits (st (a + L)) (i (a + L))).
    unfold rd_step. cbn [rd_hc]. destruct (H (a + L) ltac:(lia)) as [A B]. unfold de in A. unfold valid in B.
    rewrite A, B. cbn [andb]. rewrite IH by (intros; apply H; lia). rewrite trunc_succ. f_equal. lia.
Qed.

Lemma vc_run : forall t1 m, rises vsync t1 = true -> valid t1 = true ->
  (forall t, t1 < t < t1 + S m -> rises vsync t && valid t = false) ->
  rd_vc (st (t1 + S m)) = trunc nbits (Z.of_nat (occurrences (falls de) (S t1) m)).
Proof.
  intros t1 m R V. induction m as [|m IH]; intros H.
  - rewrite Nat.add_1_r. change (st (S t1)) with (rd_step nbits (st t1) (i t1)).
    unfold rd_step. cbn [rd_vc]. rewrite p_vs_eq, R. unfold valid in V. rewrite V. cbn [andb occurrences].
    unfold trunc. rewrite Z.mod_0_l by (apply Z.pow_nonzero; lia). reflexivity.
  - rewrite Nat.add_succ_r. change (st (S (t1 + S m))) with (rd_step nbits (st (t1 + S m)) (i (t1 + S m))).
    unfold rd_step. cbn [rd_vc]. rewrite p_vs_eq, pn_de_eq.
    rewrite (andb_comm (rdi_valid _)). fold (valid (t1 + S m)). rewrite H by lia.
    rewrite IH by (intros; apply H; lia). cbn [occurrences].
    replace (S t1 + m) with (t1 + S m) by lia.
    destruct (falls de (t1 + S m)).
    + rewrite trunc_succ. f_equal. lia.
    + f_equal. lia.
Qed.

End Res.

(** Run of DE of length [L] starting in clock [a] (and ending before [a+L]). *)
Definition de_run (de : nat -> bool) (a L : nat) : Prop :=
  1 <= L /\ rises de a = true /\ (forall t, a <= t < a + L -> de t = true) /\ de (a + L) = false.

Theorem C19_hres :
  forall (nbits : Z), (0 <= nbits)%Z ->
  forall (i : nat -> rd_in),
  let hres n := rd_h (at_ (rd_step nbits) rd_init i n) in
  let de t := rdi_de (i t) in let valid t := rdi_valid (i t) in
  (forall a L n, de_run de a L -> a + L < n ->
     (forall t, a <= t < n -> valid t = true) ->
     (forall t, a + L < t < n -> falls de t = false) ->
     hres n = (Z.of_nat L mod 2 ^ nbits)%Z) /\
  (forall t, valid t = false -> hres (S t) = 0%Z).
Proof.
  intros nbits Hb i hres de valid. split.
  - intros a L n (HL & R & D1 & D0) Hn Hv Hf.
    assert (Ha : match a with O => true | S k => negb (rdi_de (i k)) end = true).
    { unfold rises in R. apply andb_true_iff in R. destruct a; [reflexivity|]. apply R. }
    pose proof (hc_run nbits Hb i a L Ha) as HC.
    assert (F0 : falls de (a + L) = true).
    { unfold falls. rewrite D0. destruct L as [|L]; [lia|]. rewrite Nat.add_succ_r. cbn.
      apply D1. lia. }
    induction Hn as [|n Hn IH].
    + unfold hres. cbn [at_]. unfold rd_step at 1. cbn [rd_h].
      rewrite (pn_de_eq nbits i (a + L)). fold de. rewrite F0. fold (valid (a + L)). rewrite Hv by lia.
      rewrite HC; [reflexivity|]. intros t Ht. split; [apply D1; lia|apply Hv; lia].
    + rewrite <- IH by (intros; (apply Hv || apply Hf); lia).
      unfold hres. cbn [at_]. unfold rd_step at 1. cbn [rd_h].
      rewrite (pn_de_eq nbits i n). fold de. rewrite Hf by lia. fold (valid n). rewrite Hv by lia. reflexivity.
  - intros t Ht. unfold hres. cbn [at_]. unfold rd_step at 1. cbn [rd_h]. unfold valid in Ht. rewrite Ht. reflexivity.
Qed.
Print Assumptions C19_hres.

(** ** C20 *)

Theorem C20_vres :
  forall (nbits : Z), (0 <= nbits)%Z ->
  forall (i : nat -> rd_in),
  let vres n := rd_v (at_ (rd_step nbits) rd_init i n) in
  let de t := rdi_de (i t) in let vsync t := rdi_vsync (i t) in let valid t := rdi_valid (i t) in
  (forall t1 t2 n, t1 < t2 < n ->
     rises vsync t1 = true -> valid t1 = true -> rises vsync t2 = true ->
     (forall t, t1 < t < t2 -> rises vsync t && valid t = false) ->
     (forall t, t2 <= t < n -> valid t = true) ->
     (forall t, t2 < t < n -> rises vsync t = false) ->
     vres n = (Z.of_nat (occurrences (falls de) (S t1) (t2 - S t1)) mod 2 ^ nbits)%Z) /\
  (forall t, valid t = false -> vres (S t) = 0%Z).
Proof.
  intros nbits Hb i vres de vsync valid. split.
  - intros t1 t2 n [H12 Hn] R1 V1 R2 Hno Hv Hr.
    pose proof (vc_run nbits Hb i t1 (t2 - S t1) R1 V1) as VC.
    replace (t1 + S (t2 - S t1)) with t2 in VC by lia.
    specialize (VC Hno).
    induction Hn as [|n Hn IH].
    + unfold vres. cbn [at_]. unfold rd_step at 1. cbn [rd_v].
      rewrite (p_vs_eq nbits i t2). fold vsync. rewrite R2. fold (valid t2). rewrite Hv by lia.
      rewrite VC. reflexivity.
    + rewrite <- IH by (intros; (apply Hv || apply Hr); lia).
      unfold vres. cbn [at_]. unfold rd_step at 1. cbn [rd_v].
      rewrite (p_vs_eq nbits i n). fold vsync. rewrite Hr by lia. fold (valid n). rewrite Hv by lia. reflexivity.
  - intros t Ht. unfold vres. cbn [at_]. unfold rd_step at 1. cbn [rd_v]. unfold valid in Ht. rewrite Ht. reflexivity.
Qed.
Print Assumptions C20_vres.

(** 5 lines of 7 pixels per frame, 10 clocks per line, 8 lines per frame,
    vsync on line 6. *)
Definition ex_rd (t : nat) : rd_in :=
  let l := (t / 10) mod 8 in
  {| rdi_valid := true; rdi_vsync := l =? 6; rdi_de := (l <? 5) && (t mod 10 <? 7) |}.
Example ex_res : let s := at_ (rd_step 11) rd_init ex_rd 150 in (rd_h s, rd_v s) = (7, 5)%Z.
Proof. vm_compute. reflexivity. Qed.
Example ex_res_run : de_run (fun t => rdi_de (ex_rd t)) 10 7 /\ rises (fun t => rdi_vsync (ex_rd t)) 60 = true.
Proof.
  unfold de_run. repeat split; try lia; try reflexivity.
  intros t Ht. do 17 (destruct t as [|t]; [reflexivity || lia|]). lia.
Qed.
