(** Lemmas for C101 and C102: the bus synchroniser and the delay taps. *)
From Coq Require Import ZArith List Bool Arith Lia.
From Verif Require Import Hdl Trace CdcModel CdcProofs TapModel.
Import ListNotations.
Open Scope nat_scope.

Lemma occ_front : forall p a n, occurrences p a (S n) = (if p a then 1 else 0) + occurrences p (S a) n.
Proof. intros. change (S n) with (1 + n). rewrite occ_app. cbn [occurrences]. rewrite Nat.add_0_r, Nat.add_1_r. reflexivity. Qed.

(** * The token between the two clock domains *)
Inductive bph := BS | P0 | P1 | P2 | P3 | Q0 | Q1 | Q2.
Definition ps_all (t : bool) : ps_st := {| ps_t := t; ps_m0 := t; ps_m1 := t; ps_r := t |}.
Definition bemb (p : bph) (tp tq : bool) : bs_ctl :=
  {| bs_start := match p with BS => true | _ => false end;
     bs_ping := match p with
       | P0 => {| ps_t := tp; ps_m0 := negb tp; ps_m1 := negb tp; ps_r := negb tp |}
       | P1 => {| ps_t := tp; ps_m0 := tp; ps_m1 := negb tp; ps_r := negb tp |}
       | P2 => {| ps_t := tp; ps_m0 := tp; ps_m1 := tp; ps_r := negb tp |}
       | _ => ps_all tp end;
     bs_pf := match p with P3 => true | _ => false end;
     bs_pong := match p with
       | Q0 => {| ps_t := tq; ps_m0 := negb tq; ps_m1 := negb tq; ps_r := negb tq |}
       | Q1 => {| ps_t := tq; ps_m0 := tq; ps_m1 := negb tq; ps_r := negb tq |}
       | Q2 => {| ps_t := tq; ps_m0 := tq; ps_m1 := tq; ps_r := negb tq |}
       | _ => ps_all tq end |}.
Definition bnext (p : bph) (a b rt : bool) : bph :=
  match p with
  | BS => if a then (if b && rt then P1 else P0) else BS
  | P0 => if b then P1 else P0 | P1 => if b then P2 else P1 | P2 => if b then P3 else P2 | P3 => if b then Q0 else P3
  | Q0 => if a then Q1 else Q0 | Q1 => if a then Q2 else Q1
  | Q2 => if a then (if b && rt then P1 else P0) else Q2
  end.
Definition bflip_p (p : bph) (a : bool) : bool := match p with BS | Q2 => a | _ => false end.
Definition bflip_q (p : bph) (b : bool) : bool := match p with P3 => b | _ => false end.
Lemma bsim : forall p tp tq a b rt done, done = false \/ p = Q2 ->
  bs_ctl_step a b rt done (bemb p tp tq) = bemb (bnext p a b rt) (xorb tp (bflip_p p a)) (xorb tq (bflip_q p b)).
Proof. intros p tp tq a b rt done [-> | ->]; [destruct p|destruct done]; destruct a, b, rt, tp, tq; reflexivity. Qed.
Lemma bpong : forall p tp tq, ps_o (bs_pong (bemb p tp tq)) = match p with Q2 => true | _ => false end.
Proof. intros p tp tq. destruct p, tp, tq; reflexivity. Qed.
Lemma bgo : forall p tp tq, bs_go false (bemb p tp tq) = match p with BS | Q2 => true | _ => false end.
Proof. intros p tp tq. destruct p, tp, tq; reflexivity. Qed.

Section Bus.
Variable x : nat -> bs_in.
Let a n := bsi_a (x n).
Let b n := bsi_b (x n).
(** The destination clock is not too slow for the timer. *)
Hypothesis FAST : forall u m, 126 <= occurrences a u m -> 4 <= occurrences b u m.

(** Where the token is, and the instants from which the two buffers have their values. *)
Record gst := { g_ph : bph; g_tp : bool; g_tq : bool; g_ib : option nat; g_o : option nat; g_e : nat }.
Fixpoint gh (n : nat) : gst :=
  match n with
  | O => {| g_ph := BS; g_tp := false; g_tq := false; g_ib := None; g_o := None; g_e := 0 |}
  | S m => let g := gh m in
    {| g_ph := bnext (g_ph g) (a m) (b m) (bsi_rt (x m)); g_tp := xorb (g_tp g) (bflip_p (g_ph g) (a m)); g_tq := xorb (g_tq g) (bflip_q (g_ph g) (b m));
       g_ib := match g_ph g with Q2 => if a m then Some m else g_ib g | _ => g_ib g end;
       g_o := match g_ph g with P3 => if b m then g_ib g else g_o g | _ => g_o g end;
       g_e := match g_ph g with BS | Q2 => if a m then m else g_e g | _ => g_e g end |}
  end.
Definition val (o : option nat) : Z := match o with Some j => bsi_i (x j) | None => 0%Z end.
Definition ole (o q : option nat) : Prop := match o, q with Some j, Some k => j <= k | Some _, None => False | None, _ => True end.
Lemma ole_refl : forall o, ole o o. Proof. intros [j|]; cbn; auto. Qed.
Lemma ole_trans : forall o p q, ole o p -> ole p q -> ole o q.
Proof. intros [j|] [k|] [l|]; cbn; try tauto; lia. Qed.

Definition tleft (n : nat) (p : nat) (c : Z) (e : nat) : Prop :=
  e < n /\ occurrences b (S e) (n - S e) <= p /\ c = (128 - Z.of_nat (occurrences a (S e) (n - S e)))%Z.
Definition binv (n : nat) : Prop :=
  let g := gh n in let s := bs_run 128 x n in
  bs_c s = bemb (g_ph g) (g_tp g) (g_tq g) /\ bs_ib s = val (g_ib g) /\ bs_o s = val (g_o g) /\
  (match g_ib g with Some j => j < n /\ a j = true | None => True end) /\ ole (g_o g) (g_ib g) /\
  (match g_ph g with
   | BS => bs_cnt s = 128%Z
   | P0 => tleft n 0 (bs_cnt s) (g_e g)
   | P1 => tleft n 1 (bs_cnt s) (g_e g)
   | P2 => tleft n 2 (bs_cnt s) (g_e g) /\ bs_d0 s = bs_ib s
   | P3 => tleft n 3 (bs_cnt s) (g_e g) /\ bs_d0 s = bs_ib s /\ bs_d1 s = bs_ib s
   | Q0 => (2 <= bs_cnt s)%Z /\ g_o g = g_ib g
   | Q1 => (1 <= bs_cnt s)%Z /\ g_o g = g_ib g
   | Q2 => g_o g = g_ib g
   end).

Lemma tleft_pos : forall n p c e, p <= 3 -> tleft n p c e -> (3 <= c)%Z.
Proof.
  intros n p c e P (L & B & ->). destruct (Nat.le_gt_cases 126 (occurrences a (S e) (n - S e))) as [G|G]; [|lia].
  apply FAST in G. lia.
Qed.
Lemma tleft_S : forall n p c e, tleft n p c e -> tleft (S n) (p + (if b n then 1 else 0)) (c - (if a n then 1 else 0)) e.
Proof.
  intros n p c e (L & B & ->). split; [lia|]. replace (S n - S e) with (S (n - S e)) by lia. cbn [occurrences].
  replace (S e + (n - S e)) with n by lia. split; [lia|]. destruct (a n); lia.
Qed.
Lemma tleft_mono : forall n p q c d e, p <= q -> c = d -> tleft n p c e -> tleft n q d e.
Proof. intros n p q c d e P -> (L & B & C). split; [exact L|]. split; [lia|exact C]. Qed.
Lemma tleft_0 : forall n, tleft (S n) 0 128 n.
Proof. intros n. split; [lia|]. rewrite Nat.sub_diag. cbn. split; [lia|reflexivity]. Qed.

Lemma binv_all : forall n, binv n.
Proof.
  induction n as [|n (I1 & I2 & I3 & I4 & I5 & I6)]; [repeat split|].
  unfold binv. cbn [gh].
  assert (ST : bs_run 128 x (S n) = bs_step 128 (bs_run 128 x n) (x n)) by reflexivity. rewrite ST. clear ST.
  set (s := bs_run 128 x n) in *. destruct (gh n) as [ph tp tq gi go e] eqn:G. cbn [g_ph g_tp g_tq g_ib g_o g_e] in *.
  assert (DN : (bs_cnt s =? 0)%Z = false \/ ph = Q2).
  { destruct ph; try (right; reflexivity); left; apply Z.eqb_neq; try lia.
    - apply tleft_pos in I6; lia.
    - apply tleft_pos in I6; lia.
    - destruct I6 as [I6 _]. apply tleft_pos in I6; lia.
    - destruct I6 as [I6 _]. apply tleft_pos in I6; lia. }
  unfold bs_step; cbn [bs_c bs_cnt bs_ib bs_d0 bs_d1 bs_o]. change (bsi_a (x n)) with (a n). change (bsi_b (x n)) with (b n).
  rewrite I1, bpong. split; [rewrite bsim by exact DN; reflexivity|].
  assert (GO : bs_go (bs_cnt s =? 0)%Z (bemb ph tp tq) = match ph with BS | Q2 => true | _ => false end).
  { destruct DN as [D | ->]; [rewrite D; apply bgo|]. destruct (bs_cnt s =? 0)%Z; [destruct tp, tq; reflexivity|apply bgo]. }
  rewrite GO. clear GO DN.
  assert (PF : bs_pf (bemb ph tp tq) = match ph with P3 => true | _ => false end) by reflexivity. rewrite PF. clear PF.
  assert (OG : match gi with Some j => j < S n /\ a j = true | None => True end).
  { destruct gi as [j|]; [|exact I]. split; [lia|tauto]. }
  split.
  { destruct ph; rewrite ?andb_false_r; try exact I2. rewrite andb_true_r. destruct (a n); [reflexivity|exact I2]. }
  split.
  { destruct ph; rewrite ?andb_false_r; try exact I3. rewrite andb_true_r. destruct (b n); [|exact I3]. destruct I6 as (_ & _ & ->). exact I2. }
  split.
  { destruct ph; try exact OG. destruct (a n) eqn:A; [|exact OG]. split; [lia|exact A]. }
  split.
  { destruct ph; try exact I5; [destruct (b n); [apply ole_refl|exact I5]|]. destruct (a n); [|exact I5].
    subst go. destruct gi as [k|]; cbn; [destruct OG; lia|exact I]. }
  assert (LX : forall m, Z.lxor (bs_ib s) (Z.land m (Z.lxor (bs_ib s) (bs_ib s))) = bs_ib s).
  { intros m. rewrite Z.lxor_nilpotent, Z.land_0_r, Z.lxor_0_r. reflexivity. }
  destruct ph; cbn [bnext]; rewrite ?andb_false_r, ?andb_true_r, ?LX.
  - destruct (a n); [|exact I6]. destruct (b n && bsi_rt (x n)); [apply (tleft_mono _ 0 _ 128); [lia|reflexivity|apply tleft_0]|apply tleft_0].
  - apply tleft_S in I6. destruct (b n); (eapply tleft_mono; [| |exact I6]; [lia|destruct (a n); lia]).
  - apply tleft_S in I6. destruct (b n); [split; [|reflexivity]|]; (eapply tleft_mono; [| |exact I6]; [lia|destruct (a n); lia]).
  - destruct I6 as [I6 D]. apply tleft_S in I6. destruct (b n); (split; [eapply tleft_mono; [| |exact I6]; [lia|destruct (a n); lia]|]); [split; [reflexivity|exact D]|exact D].
  - destruct I6 as [I6 D]. pose proof (tleft_pos _ 3 _ _ ltac:(lia) I6). apply tleft_S in I6. destruct (b n).
    + split; [destruct (a n); lia|]. reflexivity.
    + split; [eapply tleft_mono; [| |exact I6]; [lia|destruct (a n); lia]|exact D].
  - destruct I6 as [I6 D]. destruct (a n); (split; [lia|exact D]).
  - destruct I6 as [I6 D]. destruct (a n); [exact D|split; [lia|exact D]].
  - destruct (a n); [|exact I6]. destruct (b n && bsi_rt (x n)); [apply (tleft_mono _ 0 _ 128); [lia|reflexivity|apply tleft_0]|apply tleft_0].
Qed.

Lemma bs_o_val : forall n, bs_o (bs_run 128 x n) = val (g_o (gh n)).
Proof. intros n. destruct (binv_all n) as (_ & _ & H & _). exact H. Qed.
Lemma g_src : forall n j, g_o (gh n) = Some j -> j < n /\ a j = true.
Proof.
  intros n j H. destruct (binv_all n) as (_ & _ & _ & _ & L & _). rewrite H in L.
  revert j H L. induction n as [|n IH]; intros j H L; [discriminate|]. cbn [gh g_o] in H.
  assert (K : forall m q, g_ib (gh m) = Some q -> q < m /\ a q = true) by (intros m q Q; destruct (binv_all m) as (_ & _ & _ & C & _); rewrite Q in C; exact C).
  assert (R : forall q, g_o (gh n) = Some q -> q < S n /\ a q = true).
  { intros q Q. destruct (binv_all n) as (_ & _ & _ & _ & M & _). rewrite Q in M. destruct (IH q Q M). split; [lia|assumption]. }
  destruct (g_ph (gh n)); try (apply R; exact H). destruct (b n); [|apply R; exact H]. apply K in H. split; [lia|tauto].
Qed.
Lemma g_ib_mono : forall m n, m <= n -> ole (g_ib (gh m)) (g_ib (gh n)).
Proof.
  intros m n L. induction L as [|n L IH]; [apply ole_refl|]. apply (ole_trans _ _ _ IH). cbn [gh g_ib].
  destruct (g_ph (gh n)); try apply ole_refl. destruct (a n); [|apply ole_refl].
  destruct (binv_all n) as (_ & _ & _ & C & _). destruct (g_ib (gh n)); cbn; [lia|exact I].
Qed.
Lemma g_o_mono : forall m n, m <= n -> ole (g_o (gh m)) (g_o (gh n)).
Proof.
  intros m n L. induction L as [|n L IH]; [apply ole_refl|]. apply (ole_trans _ _ _ IH). cbn [gh g_o].
  destruct (g_ph (gh n)) eqn:P; try apply ole_refl. destruct (b n); [|apply ole_refl].
  destruct (binv_all n) as (_ & _ & _ & _ & C & _). exact C.
Qed.

(** ** Progress *)
Definition need_b (p : bph) : nat := match p with P0 => 4 | P1 => 3 | P2 => 2 | P3 => 1 | _ => 0 end.
Definition need_a (p : bph) : nat := match p with Q0 => 3 | Q1 => 2 | Q2 => 1 | _ => 0 end.
Lemma reach_q : forall m u, g_ph (gh u) <> BS -> need_b (g_ph (gh u)) <= occurrences b u m ->
  exists w, u <= w <= u + m /\ need_b (g_ph (gh w)) = 0 /\ g_ph (gh w) <> BS.
Proof.
  induction m as [|m IH]; intros u N H.
  - exists u. cbn in H. split; [lia|]. split; [lia|exact N].
  - destruct (Nat.eq_dec (need_b (g_ph (gh u))) 0) as [Z|Z]; [exists u; split; [lia|]; split; assumption|].
    rewrite occ_front in H. destruct (IH (S u)) as (w & W & P).
    + cbn [gh g_ph]. destruct (g_ph (gh u)); cbn [need_b] in Z; try lia; cbn [bnext]; destruct (b u); discriminate.
    + cbn [gh g_ph]. destruct (g_ph (gh u)); cbn [need_b bnext] in *; try lia; destruct (b u); cbn [need_b]; lia.
    + exists w. split; [lia|exact P].
Qed.
Lemma reach_p : forall m u, need_a (g_ph (gh u)) <> 0 -> need_a (g_ph (gh u)) <= occurrences a u m ->
  exists w, u <= w < u + m /\ g_ib (gh (S w)) = Some w.
Proof.
  induction m as [|m IH]; intros u N H; [cbn in H; lia|].
  rewrite occ_front in H. destruct (g_ph (gh u)) eqn:P; cbn [need_a] in N, H; try lia.
  - destruct (IH (S u)) as (w & W & Q); [cbn [gh g_ph]; rewrite P; cbn [bnext]; destruct (a u); discriminate| |exists w; split; [lia|exact Q]].
    cbn [gh g_ph]; rewrite P; cbn [bnext]; destruct (a u); cbn [need_a]; lia.
  - destruct (IH (S u)) as (w & W & Q); [cbn [gh g_ph]; rewrite P; cbn [bnext]; destruct (a u); discriminate| |exists w; split; [lia|exact Q]].
    cbn [gh g_ph]; rewrite P; cbn [bnext]; destruct (a u); cbn [need_a]; lia.
  - destruct (a u) eqn:A.
    + exists u. split; [lia|]. cbn [gh g_ib]. rewrite P, A. reflexivity.
    + destruct (IH (S u)) as (w & W & Q); [cbn [gh g_ph]; rewrite P, A; discriminate| |exists w; split; [lia|exact Q]].
      cbn [gh g_ph]; rewrite P, A; cbn [bnext need_a]; lia.
Qed.
Lemma started : forall u, occurrences a 0 u <> 0 -> g_ph (gh u) <> BS.
Proof.
  induction u as [|u IH]; intros H; [cbn in H; lia|]. cbn [occurrences Nat.add] in H. cbn [gh g_ph].
  destruct (g_ph (gh u)) eqn:P; cbn [bnext]; try (destruct (b u); discriminate); try (destruct (a u); discriminate).
  - destruct (a u); [destruct (b u && bsi_rt (x u)); discriminate|]. exfalso. apply IH; [lia|reflexivity].
  - destruct (a u); [destruct (b u && bsi_rt (x u)); discriminate|discriminate].
Qed.
Lemma fresh_read : forall p u v n, p <= u -> u <= v -> v <= n -> occurrences a 0 p <> 0 ->
  4 <= occurrences b p (u - p) -> 3 <= occurrences a u (v - u) -> 4 <= occurrences b v (n - v) ->
  exists j, g_o (gh n) = Some j /\ p <= j.
Proof.
  intros p u v n PU UV VN ST B1 A1 B2.
  destruct (reach_q (u - p) p (started p ST)) as (w1 & W1 & Q1 & S1); [destruct (g_ph (gh p)); cbn; lia|].
  assert (N1 : need_a (g_ph (gh w1)) <> 0) by (destruct (g_ph (gh w1)); cbn in *; congruence || lia).
  destruct (reach_p (v - w1) w1 N1) as (w2 & W2 & C).
  { assert (occurrences a w1 (v - w1) = occurrences a w1 (u - w1) + occurrences a u (v - u)).
    { replace (v - w1) with ((u - w1) + (v - u)) by lia. rewrite occ_app. f_equal. f_equal. lia. }
    destruct (g_ph (gh w1)); cbn in *; lia. }
  assert (G1 : ole (Some w2) (g_ib (gh v))) by (rewrite <- C; apply g_ib_mono; lia).
  destruct (reach_q (n - v) v) as (w3 & W3 & Q3 & S3).
  { apply started. replace v with (p + (v - p)) by lia. rewrite occ_app. lia. }
  { destruct (g_ph (gh v)); cbn; lia. }
  assert (E : g_o (gh w3) = g_ib (gh w3)).
  { destruct (binv_all w3) as (_ & _ & _ & _ & _ & E). destruct (g_ph (gh w3)); cbn in Q3; try lia; try congruence; tauto. }
  assert (G3 : ole (Some w2) (g_o (gh n))).
  { apply (ole_trans _ (g_o (gh w3))); [|apply g_o_mono; lia]. rewrite E. apply (ole_trans _ _ _ G1). apply g_ib_mono. lia. }
  destruct (g_o (gh n)) as [j|]; cbn in G3; [|tauto]. exists j. split; [reflexivity|lia].
Qed.
End Bus.

(** * Commands *)
Lemma collect_none : forall (A : Type) (f : nat -> option A) s n, (forall t, s <= t < s + n -> f t = None) -> collect f s n = [].
Proof. induction n as [|n IH]; intros H; [reflexivity|]. cbn [collect]. rewrite IH by (intros; apply H; lia). rewrite H by lia. reflexivity. Qed.
Lemma collect_split : forall (A : Type) (f : nat -> option A) s n m, collect f s (n + m) = collect f s n ++ collect f (s + n) m.
Proof.
  induction m as [|m IH]; [rewrite Nat.add_0_r, app_nil_r; reflexivity|]. rewrite Nat.add_succ_r. cbn [collect]. rewrite IH, app_assoc, Nat.add_assoc. reflexivity.
Qed.
Lemma collect_one : forall (A : Type) (f : nat -> option A) s n p c, s <= p < s + n -> f p = Some c -> (forall t, s <= t < s + n -> t <> p -> f t = None) ->
  collect f s n = [c].
Proof.
  intros A f s n p c P H N. replace n with ((p - s) + (1 + (s + n - S p))) by lia. rewrite !collect_split.
  replace (s + (p - s)) with p by lia. rewrite collect_none by (intros; apply N; lia). rewrite (collect_none _ f (p + 1)) by (intros; apply N; lia).
  cbn [collect]. rewrite Nat.add_0_r, H. reflexivity.
Qed.

Section Tap.
Variable x : nat -> tp_in.
Let pix n := tpi_pix (x n).
Let prst n := tpi_sys (x n) && tpi_rst (x n).
Let pinc n := tpi_sys (x n) && tpi_inc (x n).
Let pdec n := tpi_sys (x n) && tpi_dec (x n).
Let any n := prst n || pinc n || pdec n.
(** A command is the three bits of a write. *)
Let cmd n : option (bool * bool * bool) := if any n then Some (prst n, pinc n, pdec n) else None.
Hypothesis APART : forall p q, p < q -> any p = true -> any q = true -> exists t, p < t <= q /\ pix t = true.

Definition ap (c : Z) (k : bool * bool * bool) : Z := let '(r, i, d) := k in tap_step r (i || d) i c.
Lemma tp_ps : forall n,
  tp_rst (tp_run x n) = ps_run (fun t => (tpi_sys (x t), tpi_pix (x t), tpi_rst (x t))) n /\
  tp_inc (tp_run x n) = ps_run (fun t => (tpi_sys (x t), tpi_pix (x t), tpi_inc (x t))) n /\
  tp_dec (tp_run x n) = ps_run (fun t => (tpi_sys (x t), tpi_pix (x t), tpi_dec (x t))) n.
Proof.
  induction n as [|n (I1 & I2 & I3)]; [repeat split|].
  assert (ST : tp_run x (S n) = tp_step (tp_run x n) (x n)) by reflexivity. rewrite ST, !ps_run_S. unfold tp_step; cbn [tp_rst tp_inc tp_dec].
  rewrite I1, I2, I3. repeat split.
Qed.
Lemma window : forall s m c, (forall t, s < t < s + m -> pix t = false) ->
  fold_left ap (collect cmd s m) c = tap_step (Nat.odd (occurrences prst s m)) (Nat.odd (occurrences pinc s m) || Nat.odd (occurrences pdec s m)) (Nat.odd (occurrences pinc s m)) c.
Proof.
  intros s m c H. destruct (Nat.eq_dec (occurrences any s m) 0) as [Z|Z].
  - assert (N : forall t, s <= t < s + m -> any t = false).
    { intros t T. destruct (any t) eqn:A; [|reflexivity]. exfalso.
      replace m with ((t - s) + (1 + (s + m - S t))) in Z by lia. rewrite !occ_app in Z. replace (s + (t - s)) with t in Z by lia. cbn [occurrences] in Z. rewrite Nat.add_0_r, A in Z. lia. }
    assert (N3 : forall t, s <= t < s + m -> prst t = false /\ pinc t = false /\ pdec t = false).
    { intros t T. specialize (N t T). unfold any in N. apply orb_false_elim in N as [N ?]. apply orb_false_elim in N as [? ?]. auto. }
    rewrite collect_none by (intros t T; unfold cmd; rewrite N by exact T; reflexivity).
    rewrite !occ_zero by (intros t T; apply N3; exact T). reflexivity.
  - destruct (occ_pos any s m Z) as (p & P & A).
    assert (U : forall t, s <= t < s + m -> t <> p -> any t = false).
    { intros t T NE. destruct (any t) eqn:B; [|reflexivity]. exfalso.
      destruct (Nat.lt_trichotomy t p) as [L|[L|L]]; [|tauto|].
      - destruct (APART t p L B A) as (u & U & E). rewrite H in E by lia. discriminate.
      - destruct (APART p t L A B) as (u & U & E). rewrite H in E by lia. discriminate. }
    assert (U3 : forall t, s <= t < s + m -> t <> p -> prst t = false /\ pinc t = false /\ pdec t = false).
    { intros t T NE. specialize (U t T NE). unfold any in U. apply orb_false_elim in U as [U ?]. apply orb_false_elim in U as [? ?]. auto. }
    rewrite (collect_one _ cmd s m p (prst p, pinc p, pdec p)); [|exact P|unfold cmd; rewrite A; reflexivity|intros t T NE; unfold cmd; rewrite U by assumption; reflexivity].
    assert (O : forall q, (forall t, s <= t < s + m -> t <> p -> q t = false) -> Nat.odd (occurrences q s m) = q p).
    { intros q Q. destruct (q p) eqn:E.
      - rewrite (occ_one q s m p P E); [reflexivity|]. intros t T F. destruct (Nat.eq_dec t p); [assumption|]. rewrite Q in F by assumption. discriminate.
      - rewrite occ_zero; [reflexivity|]. intros t T. destruct (Nat.eq_dec t p) as [->|]; [exact E|apply Q; assumption]. }
    rewrite (O prst), (O pinc), (O pdec) by (intros t T NE; apply U3; assumption). reflexivity.
Qed.
Definition upto (o : option nat) : nat := match o with Some t => t | None => 0 end.
Lemma tap_is : forall n, tp_cnt (tp_run x n) = fold_left ap (collect cmd 0 (upto (prev3 pix n))) 0%Z.
Proof.
  induction n as [|n IH]; [reflexivity|].
  assert (ST : tp_cnt (tp_run x (S n)) = if pix n then tap_step (ps_o (tp_rst (tp_run x n))) (ps_o (tp_inc (tp_run x n)) || ps_o (tp_dec (tp_run x n))) (ps_o (tp_inc (tp_run x n))) (tp_cnt (tp_run x n)) else tp_cnt (tp_run x n)) by reflexivity.
  rewrite ST. clear ST. unfold prev3, prev2. cbn [prev]. destruct (pix n) eqn:PX.
  2:{ rewrite IH. reflexivity. }
  change (match prev pix n with Some a => prev pix a | None => None end) with (prev2 pix n).
  destruct (tp_ps n) as (-> & -> & ->). rewrite !ps_o_count.
  change (eB (fun t => (tpi_sys (x t), tpi_pix (x t), tpi_rst (x t)))) with pix. change (eB (fun t => (tpi_sys (x t), tpi_pix (x t), tpi_inc (x t)))) with pix.
  change (eB (fun t => (tpi_sys (x t), tpi_pix (x t), tpi_dec (x t)))) with pix.
  change (pulse (fun t => (tpi_sys (x t), tpi_pix (x t), tpi_rst (x t)))) with prst. change (pulse (fun t => (tpi_sys (x t), tpi_pix (x t), tpi_inc (x t)))) with pinc.
  change (pulse (fun t => (tpi_sys (x t), tpi_pix (x t), tpi_dec (x t)))) with pdec.
  rewrite IH. unfold prev3. destruct (prev2 pix n) as [b|] eqn:B; cbn [upto].
  - destruct (prev pix b) as [a|] eqn:A; cbn [upto].
    + apply prev_some in A as (L & E & N). rewrite <- window by (intros t T; apply N; lia).
      rewrite <- fold_left_app. f_equal. change a with (0 + a) at 2. rewrite <- collect_split. f_equal. lia.
    + pose proof (prev_none _ _ A) as N. rewrite <- window by (intros t T; apply N; lia). reflexivity.
  - reflexivity.
Qed.
Lemma prev3_count : forall p n, p <= n -> 3 <= occurrences pix p (n - p) -> p <= upto (prev3 pix n).
Proof.
  assert (K : forall p n k, p <= n -> S k <= occurrences pix p (n - p) -> exists b, prev pix n = Some b /\ p <= b /\ k <= occurrences pix p (b - p)).
  { intros p n k L H. destruct (prev pix n) as [b|] eqn:B.
    - apply prev_some in B as (B1 & B2 & B3). exists b. split; [reflexivity|].
      assert (PB : p <= b). { destruct (Nat.le_gt_cases p b); [assumption|]. rewrite occ_zero in H by (intros; apply B3; lia). lia. }
      split; [exact PB|]. replace (n - p) with ((b - p) + (1 + (n - S b))) in H by lia. rewrite !occ_app in H. replace (p + (b - p)) with b in H by lia.
      cbn [occurrences] in H. rewrite Nat.add_0_r, B2 in H. rewrite (occ_zero pix (b + 1)) in H by (intros; apply B3; lia). lia.
    - pose proof (prev_none _ _ B) as N. rewrite occ_zero in H by (intros; apply N; lia). lia. }
  intros p n L H. destruct (K p n 2 L H) as (b & B & PB & HB). destruct (K p b 1 PB HB) as (c & C & PC & HC). destruct (K p c 0 PC HC) as (d & D & PD & _).
  unfold prev3, prev2. rewrite B, C, D. exact PD.
Qed.
Lemma upto_le : forall n, upto (prev3 pix n) <= n.
Proof.
  intros n. unfold prev3, prev2. destruct (prev pix n) as [b|] eqn:B; [|cbn; lia]. apply prev_some in B as (B & _).
  destruct (prev pix b) as [c|] eqn:C; [|cbn; lia]. apply prev_some in C as (C & _).
  destruct (prev pix c) as [d|] eqn:D; [|cbn; lia]. apply prev_some in D as (D & _). cbn. lia.
Qed.
Lemma tap_settled : forall p n, p <= n -> 3 <= occurrences pix p (n - p) -> (forall t, p <= t < n -> any t = false) ->
  tp_cnt (tp_run x n) = fold_left ap (collect cmd 0 p) 0%Z.
Proof.
  intros p n L H N. rewrite tap_is. pose proof (prev3_count p n L H). pose proof (upto_le n).
  replace (upto (prev3 pix n)) with (p + (upto (prev3 pix n) - p)) by lia. rewrite collect_split, (collect_none _ cmd (0 + p)), app_nil_r; [reflexivity|].
  intros t T. unfold cmd. rewrite N by lia. reflexivity.
Qed.
Lemma tp_bs_run : forall n, tp_bs (tp_run x n) =
  bs_run 128 (fun t => {| bsi_a := tpi_pix (x t); bsi_b := tpi_sys (x t); bsi_i := tp_cnt (tp_run x t); bsi_rt := tpi_rt (x t); bsi_rd := tpi_rd (x t) |}) n.
Proof.
  induction n as [|n IH]; [reflexivity|].
  assert (ST : tp_run x (S n) = tp_step (tp_run x n) (x n)) by reflexivity. rewrite ST. unfold tp_step; cbn [tp_bs]. rewrite IH. reflexivity.
Qed.
End Tap.
