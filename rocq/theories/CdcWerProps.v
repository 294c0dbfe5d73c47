(** C76: the word error count as read by software. *)
From Coq Require Import ZArith List Bool Arith Lia.
From Verif Require Import Hdl Trace WerModel WerSpec WerProofs CdcModel CdcProofs CdcProps.
Import ListNotations.
Open Scope nat_scope.

Lemma edge_at : forall e a n k, k < occurrences e a n -> exists t, a <= t < a + n /\ e t = true /\ occurrences e a (t - a) = k.
Proof.
  induction n as [|n IH]; intros k H; [cbn in H; lia|]. cbn [occurrences] in H.
  destruct (Nat.lt_ge_cases k (occurrences e a n)) as [L|L].
  - destruct (IH k L) as (t & A & B & C). exists t. split; [lia|auto].
  - destruct (e (a + n)) eqn:E; [|lia]. exists (a + n). split; [lia|]. split; [exact E|].
    replace (a + n - a) with n by lia. lia.
Qed.
Lemma between_edge : forall e p r k, p < r -> k < between e p r -> exists s, p < s < r /\ e s = true /\ between e p s = k.
Proof.
  intros e p r k L H. unfold between in *. destruct (edge_at e (S p) (r - S p) k H) as (t & A & B & C).
  exists t. split; [lia|]. split; [exact B|]. exact C.
Qed.
Lemma between_split : forall e p q n, p < q -> q < n -> between e p n = between e p q + (if e q then 1 else 0) + between e q n.
Proof.
  intros e p q n A B. unfold between. replace (n - S p) with ((q - S p) + (1 + (n - S q))) by lia.
  rewrite !occ_app. replace (S p + (q - S p)) with q by lia. cbn [occurrences]. rewrite !Nat.add_0_r.
  replace (q + 1) with (S q) by lia. lia.
Qed.

Lemma upd_period : forall pb, 2 <= pb -> forall x, (forall n, (0 <= x n < 1024)%Z) -> forall k,
  w_upd (wer_at (Z.of_nat pb) x k) = true <-> exists m, k = 2 ^ pb * (m + 1) + 1.
Proof.
  intros pb Hpb x Hx k. pose proof (P_pos pb Hpb) as HP. set (P := 2 ^ pb) in *.
  destruct k as [|k]; [split; [discriminate|intros (m & H); lia]|].
  assert (E : w_upd (wer_at (Z.of_nat pb) x (S k)) = w_done (wer_at (Z.of_nat pb) x k)) by reflexivity. rewrite E. clear E.
  destruct k as [|k]; [split; [discriminate|intros (m & H); nia]|].
  pose proof (Nat.div_mod k P ltac:(lia)) as D. pose proof (Nat.mod_upper_bound k P ltac:(lia)) as U.
  destruct (inv pb Hpb x Hx k (k / P) (k mod P) D U) as (_ & I & _). rewrite I. fold P. rewrite Nat.eqb_eq.
  split; [intros H; exists (k / P); nia|]. intros (m & H).
  assert (S (k mod P) <= P) by lia. assert (P * (m + 1) = P * (k / P) + S (k mod P)) by lia.
  assert (m = k / P) by nia. subst m. nia.
Qed.

Section C76.
Variables (pb : nat) (word : nat -> Z).
Hypothesis Hpb : 2 <= pb.
Hypothesis Hw : forall n, (0 <= word n < 1024)%Z.
(** Any schedule of the two clocks; [update]: software writes the update register. *)
Variables pix sys update : nat -> bool.
(** Number of the pixel clock at an instant. *)
Definition clk (n : nat) : nat := occurrences pix 0 n.
Definition wd_inp (n : nat) : wd_in := {| wdi_pix := pix n; wdi_sys := sys n; wdi_data := word (clk n); wdi_re := update n |}.
(** The register software reads. *)
Definition read (n : nat) : Z := wd_status (wd_run (Z.of_nat pb) wd_inp n).
(** Number of words per period. *)
Definition per : nat := 2 ^ pb.
(** The pixel clock edge at which the result of period [m] starts on its way to the system clock. *)
Definition published (m p : nat) : Prop := pix p = true /\ clk p = per * (m + 1) + 1.
(** At least three system clocks in one period. *)
Definition sys_runs : Prop := forall a b, a < b -> per - 1 <= between pix a b -> 3 <= between sys a b.

Lemma clk_S : forall n, clk (S n) = clk n + (if pix n then 1 else 0).
Proof. reflexivity. Qed.
Lemma clk_between : forall p n, p < n -> clk n = clk p + (if pix p then 1 else 0) + between pix p n.
Proof.
  intros p n L. unfold clk, between. replace n with (p + (1 + (n - S p))) at 1 by lia. rewrite !occ_app.
  cbn [occurrences Nat.add]. rewrite Nat.add_0_r. replace (p + 1) with (S p) by lia. lia.
Qed.
Lemma clk_le : forall a b, a <= b -> clk a <= clk b.
Proof. intros a b L. unfold clk. replace b with (a + (b - a)) by lia. rewrite occ_app. lia. Qed.
Lemma wd_S : forall n, wd_run (Z.of_nat pb) wd_inp (S n) = wd_step (Z.of_nat pb) (wd_run (Z.of_nat pb) wd_inp n) (wd_inp n).
Proof. reflexivity. Qed.
Lemma wd_wer_at : forall n, wd_wer (wd_run (Z.of_nat pb) wd_inp n) = wer_at (Z.of_nat pb) word (clk n).
Proof.
  induction n as [|n IH]; [reflexivity|]. rewrite wd_S, clk_S. unfold wd_step; cbn [wd_wer].
  change (wdi_pix (wd_inp n)) with (pix n). change (wdi_data (wd_inp n)) with (word (clk n)). rewrite IH. destruct (pix n); [rewrite Nat.add_1_r; reflexivity|rewrite Nat.add_0_r; reflexivity].
Qed.
Definition upd (n : nat) : bool := w_upd (wer_at (Z.of_nat pb) word (clk n)).
Lemma wd_ps_at : forall n, wd_ps (wd_run (Z.of_nat pb) wd_inp n) = ps_run (cdc_inp pix sys upd) n.
Proof.
  induction n as [|n IH]; [reflexivity|]. rewrite wd_S. unfold wd_step; cbn [wd_ps]. rewrite IH, wd_wer_at. reflexivity.
Qed.
Lemma given_published : forall q, given pix upd q <-> exists m, published m q.
Proof.
  intros q. unfold given, upd. rewrite upd_period by assumption. unfold published, per.
  split; [intros (A & m & B); eauto|intros (m & A & B); split; [exact A|eauto]].
Qed.
Lemma published_mono : forall m m' p p', published m p -> published m' p' -> m < m' -> p < p'.
Proof.
  intros m m' p p' (A & B) (A' & B') L. destruct (Nat.lt_ge_cases p p') as [|Q]; [assumption|].
  apply clk_le in Q. assert (1 <= per) by (pose proof (P_pos pb Hpb); unfold per; lia). nia.
Qed.
Lemma published_fun : forall m p p', published m p -> published m p' -> p = p'.
Proof.
  intros m p p' (A & B) (A' & B'). destruct (Nat.lt_trichotomy p p') as [Q|[Q|Q]]; [|exact Q|]; exfalso;
    apply clk_between in Q; rewrite ?A, ?A' in Q; lia.
Qed.
Lemma published_earlier : forall m m' q, published m' q -> m <= m' -> exists p, published m p /\ p <= q.
Proof.
  intros m m' q H L. destruct (Nat.eq_dec m m') as [->|N]; [exists q; auto|].
  assert (HP : 1 <= per) by (pose proof (P_pos pb Hpb); unfold per; lia). destruct H as (A & B).
  destruct (edge_at pix 0 q (per * (m + 1) + 1)) as (t & T & E & C); [fold (clk q); rewrite B; nia|].
  exists t. split; [|lia]. split; [exact E|]. rewrite Nat.sub_0_r in C. exact C.
Qed.

Hypothesis R : sys_runs.
Lemma far_apart : forall m m' p p', published m p -> published m' p' -> m < m' -> 3 <= between sys p p'.
Proof.
  intros m m' p p' H H' L. pose proof (published_mono _ _ _ _ H H' L) as Q. apply R; [exact Q|].
  apply clk_between in Q. destruct H as (A & B), H' as (A' & B'). rewrite A in Q. nia.
Qed.
Lemma apart : forall m p, published m p -> forall q, given pix upd q -> q <> p -> separated sys p q.
Proof.
  intros m p H q G N. apply given_published in G as (m' & H').
  assert (K : forall a b a' b', published a a' -> published b b' -> a < b -> separated sys a' b').
  { intros a b a' b' Ha Hb L. pose proof (published_mono _ _ _ _ Ha Hb L). pose proof (far_apart _ _ _ _ Ha Hb L) as F.
    destruct (between_edge sys a' b' 0 ltac:(assumption) ltac:(lia)) as (s & S1 & S2 & _).
    exists s. split; [lia|exact S2]. }
  destruct (Nat.lt_trichotomy m m') as [Q|[Q|Q]].
  - apply (K m m'); assumption.
  - subst m'. exfalso. apply N. apply (published_fun m); assumption.
  - destruct (K m' m q p H' H Q) as (t & T & E). exists t. split; [lia|exact E].
Qed.

(** A transfer happens in system clock [t] only for a publication two edges back. *)
Lemma transfer : forall t, ps_o (wd_ps (wd_run (Z.of_nat pb) wd_inp t)) = true ->
  exists m q, published m q /\ q < t /\ between sys q t = 2.
Proof.
  intros t H. rewrite wd_ps_at in H. destruct (C73_nothing_else pix sys upd t H) as (q & L & G & B).
  apply given_published in G as (m & G). eauto 6.
Qed.

Lemma held : forall m p r, published m p -> p < r -> 3 <= between sys p r ->
  (forall p', published (m + 1) p' -> p' < r -> between sys p' r < 3) ->
  wd_sys (wd_run (Z.of_nat pb) wd_inp r) = errors_between word (per * m - 2) (per * (m + 1) - 3).
Proof.
  intros m p r Pm L B3 Nx.
  assert (HP : 1 <= per) by (pose proof (P_pos pb Hpb); unfold per; lia).
  destruct (between_edge sys p r 2 L ltac:(lia)) as (s & Hs & Es & Bs).
  assert (S0 : wd_sys (wd_run (Z.of_nat pb) wd_inp (S s)) = errors_between word (per * m - 2) (per * (m + 1) - 3)).
  { rewrite wd_S. unfold wd_step; cbn [wd_sys]. change (wdi_sys (wd_inp s)) with (sys s). rewrite Es, wd_ps_at.
    change (ps_o (ps_run (cdc_inp pix sys upd) s)) with (seen pix sys upd s).
    rewrite (C73_delivered pix sys upd p s); [|apply given_published; eauto|apply (apart m); assumption|lia|exact Bs].
    cbn [andb]. rewrite wd_wer_at. apply wer_published; [assumption|assumption|]. fold per.
    pose proof (clk_between p s ltac:(lia)) as C. destruct Pm as (A & Cp). rewrite A in C. split; [lia|].
    destruct (Nat.le_gt_cases (clk s) (per * (m + 2))) as [|Q]; [assumption|].
    assert (3 <= between sys p s) by (apply R; [lia|nia]). lia. }
  assert (K : forall n, S s <= n <= r -> wd_sys (wd_run (Z.of_nat pb) wd_inp n) = errors_between word (per * m - 2) (per * (m + 1) - 3)).
  { intros n. induction n as [|n IH]; [lia|]. intros Hn. destruct (Nat.eq_dec n s) as [->|Q]; [exact S0|].
    rewrite wd_S. unfold wd_step; cbn [wd_sys]. change (wdi_sys (wd_inp n)) with (sys n).
    destruct (sys n) eqn:En; [|apply IH; lia].
    destruct (ps_o (wd_ps (wd_run (Z.of_nat pb) wd_inp n))) eqn:O; [exfalso|apply IH; lia].
    apply transfer in O as (m' & q & Pq & Lq & Bq).
    destruct (Nat.lt_trichotomy m m') as [X|[X|X]].
    - destruct (published_earlier (m + 1) m' q Pq ltac:(lia)) as (p' & P' & Lp').
      assert (between sys q r >= 3).
      { rewrite (between_split sys q n r) by lia. rewrite Bq, En. lia. }
      specialize (Nx p' P' ltac:(lia)).
      destruct (Nat.eq_dec p' q) as [E|E]; [subst; lia|]. rewrite (between_split sys p' q r) in Nx by lia. lia.
    - subst m'. rewrite (published_fun m q p Pq Pm) in *. apply Q. apply (between_unique sys p); auto; lia.
    - pose proof (published_mono _ _ _ _ Pq Pm X). pose proof (far_apart _ _ _ _ Pq Pm X).
      rewrite (between_split sys q p n) in Bq by lia. lia. }
  apply K. lia.
Qed.

(** After an update the register holds the count of the newest period whose result was published at least
    three system clocks before. *)
Theorem C76_read : forall m p r n, published m p -> sys r = true -> update r = true -> p < r -> 3 <= between sys p r ->
  (forall p', published (m + 1) p' -> p' < r -> between sys p' r < 3) ->
  r < n -> (forall t, r < t < n -> sys t && update t = false) ->
  read n = errors_between word (per * m - 2) (per * (m + 1) - 3).
Proof.
  intros m p r n Pm Sr Ur L B Nx Ln Nu. unfold read. induction n as [|n IH]; [lia|].
  rewrite wd_S. unfold wd_step; cbn [wd_status]. change (wdi_sys (wd_inp n)) with (sys n).
  change (wdi_re (wd_inp n)) with (update n).
  destruct (Nat.eq_dec n r) as [->|Q].
  - rewrite Sr, Ur. cbn [andb]. apply (held m p); assumption.
  - rewrite Nu by lia. apply IH; [lia|intros; apply Nu; lia].
Qed.
(** Before the first period is through, the register reads 0. *)
Theorem C76_initial : forall n, (forall p, published 0 p -> p < n -> between sys p n < 3) -> read n = 0%Z.
Proof.
  intros n H.
  assert (Z0 : forall k, k <= n -> wd_sys (wd_run (Z.of_nat pb) wd_inp k) = 0%Z).
  { induction k as [|k IH]; [reflexivity|]. intros Hk. rewrite wd_S. unfold wd_step; cbn [wd_sys].
    change (wdi_sys (wd_inp k)) with (sys k).
    destruct (sys k) eqn:E; [|apply IH; lia].
    destruct (ps_o (wd_ps (wd_run (Z.of_nat pb) wd_inp k))) eqn:O; [exfalso|apply IH; lia].
    apply transfer in O as (m' & q & Pq & Lq & Bq).
    destruct (published_earlier 0 m' q Pq ltac:(lia)) as (p' & P' & Lp').
    assert (between sys q n >= 3).
    { destruct (Nat.eq_dec n k); [lia|]. rewrite (between_split sys q k n) by lia. rewrite Bq, E. lia. }
    specialize (H p' P' ltac:(lia)).
    destruct (Nat.eq_dec p' q) as [X|X]; [subst; lia|]. rewrite (between_split sys p' q n) in H by lia. lia. }
  unfold read.
  assert (K : forall k, k <= n -> wd_status (wd_run (Z.of_nat pb) wd_inp k) = 0%Z).
  { induction k as [|k IH]; [reflexivity|]. intros Hk. rewrite wd_S. unfold wd_step; cbn [wd_status].
    destruct (_ && _); [apply Z0|apply IH]; lia. }
  apply K. lia.
Qed.
End C76.

(** Period of 8 words, system clock slower than the pixel clock. *)
Definition c76_word (n : nat) : Z := if n mod 3 =? 0 then 170%Z else 852%Z.
Lemma occ_le : forall e a n, occurrences e a n <= n.
Proof. induction n as [|n IH]; cbn [occurrences]; [lia|]. destruct (e (a + n)); lia. Qed.
Example C76_case : let pix := fun n => negb (n mod 5 =? 4) in let sys := Nat.even in let up := fun n => n =? 30 in
  sys_runs 3 pix sys /\ published 3 pix 1 21 /\ 3 <= between sys 21 30 /\ (forall p, published 3 pix 2 p -> 30 <= p) /\
  read 3 c76_word pix sys up 30 = 0%Z /\ read 3 c76_word pix sys up 31 = 3%Z /\ errors_between c76_word 6 13 = 3%Z.
Proof.
  intros pix sys up. split.
  { intros a b L H. unfold between in *. pose proof (occ_le pix (S a) (b - S a)).
    assert (E : b - S a = 6 + (b - S a - 6)) by (change (per 3) with 8 in H; lia). rewrite E, occ_app.
    enough (occurrences sys (S a) 6 = 3) by lia. unfold sys. cbn [occurrences]. rewrite !Nat.even_add.
    change (Nat.even 0) with true. change (Nat.even 1) with false. change (Nat.even 2) with true.
    change (Nat.even 3) with false. change (Nat.even 4) with true. change (Nat.even 5) with false.
    destruct (Nat.even (S a)); reflexivity. }
  split; [split; reflexivity|]. split; [vm_compute; lia|]. split; [|vm_compute; auto].
  intros p (_ & H). destruct (Nat.le_gt_cases 30 p) as [|Q]; [assumption|].
  assert (K : clk pix p <= clk pix 30).
  { unfold clk. replace 30 with (p + (30 - p)) by lia. rewrite occ_app. lia. }
  rewrite H in K. vm_compute in K. lia.
Qed.
Print Assumptions C76_read.
Print Assumptions C76_initial.
