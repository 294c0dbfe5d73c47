(** C128: both delay lines of the Series 7 receiver behind one register. *)
From Coq Require Import ZArith List Bool Arith Lia.
From Verif Require Import Hdl Trace CdcModel CdcProofs TapModel TapProofs TapProps S7CtlModel S7CtlProofs.
Import ListNotations.
Open Scope nat_scope.

Section Words.
Variable x : nat -> s7_in.
Definition s7_edge n := s7_pix (x n).
Definition s7_soft n := s7_sys (x n).
(** What software writes to the command register. *)
Definition written (n : nat) : option Z := if s7_sys (x n) && s7_re (x n) then Some (s7_r (x n)) else None.
(** Two writes are never given without a clock of the delay lines strictly between them. *)
Definition spaced : Prop := forall p q, p < q -> written p <> None -> written q <> None -> exists t, p < t < q /\ s7_edge t = true.
(** Bit 0 returns both lines to tap 0; bits 1 and 2 move the first line up and down, bits 3 and 4 the second. *)
Definition line_bits (second : bool) (w : Z) : bool * bool * bool :=
  (Z.testbit w 0, Z.testbit w (if second then 3 else 1), Z.testbit w (if second then 4 else 2)).
(** A word that tells each line at most one thing. *)
Definition at_most_one (k : bool * bool * bool) : Prop := let '(a, b, c) := k in a && b || a && c || b && c = false.
Definition clear_word (w : Z) : Prop := forall second, at_most_one (line_bits second w).
Definition clear_writes : Prop := forall n w, written n = Some w -> clear_word w.
(** The tap of a line after the words [l]. *)
Definition line_after (second : bool) (l : list Z) : Z := fold_left (fun c w => tap_after c (line_bits second w)) l 0%Z.
(** Tap of a line and what software reads. *)
Definition line_tap_now (second : bool) (n : nat) : Z := (if second then s7_scnt else s7_mcnt) (s7_run x n).
Definition line_read (second : bool) (n : nat) : Z := (if second then s7_sread else s7_mread) (s7_run x n).

Lemma line_words : forall (second : bool) m, let up := (if second then 3 else 1)%Z in let dn := (if second then 4 else 2)%Z in
  fold_left ap (collect (line_cmd x up dn) 0 m) 0%Z = line_after second (collect written 0 m).
Proof.
  intros second m up dn. unfold line_after. induction m as [|m IH]; [reflexivity|]. cbn [collect Nat.add]. rewrite !fold_left_app, IH.
  set (c := fold_left _ (collect written 0 m) 0%Z). unfold line_cmd, written, s7_cmd.
  destruct (s7_sys (x m)), (s7_re (x m)); cbn [andb orb]; try reflexivity.
  cbn [fold_left]. unfold line_bits. fold up dn. unfold bit. destruct (Z.testbit (s7_r (x m)) 0), (Z.testbit (s7_r (x m)) up), (Z.testbit (s7_r (x m)) dn); reflexivity.
Qed.
Lemma line_now : spaced -> clear_writes -> forall (second : bool) n, let up := (if second then 3 else 1)%Z in let dn := (if second then 4 else 2)%Z in
  line_tap_now second n = match prev3 s7_edge n with None => 0%Z | Some t => line_after second (collect written 0 (if line_won x up dn t then S t else t)) end.
Proof.
  intros SP CL second n up dn.
  assert (ONE : forall n, s7_sys (x n) = true ->
    (s7_cmd 0 (x n) = true -> s7_cmd up (x n) = false /\ s7_cmd dn (x n) = false) /\ (s7_cmd up (x n) = true -> s7_cmd dn (x n) = false)).
  { intros k K. unfold s7_cmd. destruct (s7_re (x k)) eqn:R; cbn [andb]; [|split; intros; discriminate].
    pose proof (CL k (s7_r (x k))) as C. unfold written in C. rewrite K, R in C. specialize (C eq_refl second). unfold line_bits, at_most_one in C. fold up dn in C.
    unfold bit. destruct (Z.testbit (s7_r (x k)) 0), (Z.testbit (s7_r (x k)) up), (Z.testbit (s7_r (x k)) dn); cbn in C; try discriminate; split; intros; try discriminate; auto. }
  assert (SPA : forall p q, p < q -> s7_sys (x p) && (s7_cmd 0 (x p) || s7_cmd up (x p) || s7_cmd dn (x p)) = true ->
    s7_sys (x q) && (s7_cmd 0 (x q) || s7_cmd up (x q) || s7_cmd dn (x q)) = true -> exists t, p < t < q /\ s7_pix (x t) = true).
  { intros p q L P Q. assert (W : forall k, s7_sys (x k) && (s7_cmd 0 (x k) || s7_cmd up (x k) || s7_cmd dn (x k)) = true -> written k <> None).
    { intros k K. unfold written, s7_cmd in *. destruct (s7_sys (x k)), (s7_re (x k)); cbn in *; discriminate. }
    exact (SP p q L (W p P) (W q Q)). }
  assert (T : line_tap_now second n = match prev3 (fun n => s7_pix (x n)) n with None => 0%Z | Some t => fold_left ap (collect (line_cmd x up dn) 0 (if line_won x up dn t then S t else t)) 0%Z end).
  { unfold line_tap_now, up, dn. destruct second.
    - apply (line_tap x 3 4 s7_sinc s7_sdec s7_scnt); [repeat split|reflexivity|reflexivity|reflexivity|exact ONE|exact SPA].
    - apply (line_tap x 1 2 s7_minc s7_mdec s7_mcnt); [repeat split|reflexivity|reflexivity|reflexivity|exact ONE|exact SPA]. }
  rewrite T. change (fun n => s7_pix (x n)) with s7_edge. destruct (prev3 s7_edge n) as [t|]; [|reflexivity]. exact (line_words second _).
Qed.

(** At every instant both lines have carried out, in order and once each, all writes up to the same clock of the delay
    lines three clocks ago; a write in that very clock may have reached only one of them. *)
Theorem C128_taps_now : spaced -> clear_writes -> forall n, exists t,
  t <= n /\ occurrences s7_edge t (n - t) <= 3 /\
  forall second, line_tap_now second n = line_after second (collect written 0 t) \/
    (t < n /\ s7_edge t = true /\ s7_soft t = true /\ line_tap_now second n = line_after second (collect written 0 (S t))).
Proof.
  intros SP CL n. destruct (prev3 s7_edge n) as [t|] eqn:P.
  - destruct (prev3_near _ _ _ P) as (L & E & O). exists t. split; [lia|]. split; [lia|]. intros second.
    pose proof (line_now SP CL second n) as H. cbv zeta in H. rewrite P in H.
    set (u := (if second then 3 else 1)%Z) in *. set (d := (if second then 4 else 2)%Z) in *.
    destruct (line_won x u d t) eqn:W; [right|left; exact H]. split; [exact L|]. split; [exact E|]. split; [|exact H].
    unfold line_won in W. unfold s7_soft. destruct (s7_sys (x t)); [reflexivity|discriminate].
  - exists 0. split; [lia|]. rewrite Nat.sub_0_r. split; [pose proof (prev3_few _ _ P); lia|]. intros second. left.
    pose proof (line_now SP CL second n) as H. cbv zeta in H. rewrite P in H. exact H.
Qed.

(** Once the last write is long enough ago, both lines are where the writes put them, and software reads that. *)
Theorem C128_settled : spaced -> clear_writes -> quick_reader s7_edge s7_soft ->
  forall p q n, p <= q -> 3 <= occurrences s7_edge p (q - p) -> round_trip s7_edge s7_soft q n -> (forall t, p <= t < n -> written t = None) ->
  forall second, line_tap_now second n = line_after second (collect written 0 p) /\ line_read second n = line_after second (collect written 0 p).
Proof.
  intros SP CL QR p q n PQ H RT NW second.
  assert (T : forall m, q <= m -> m <= n -> line_tap_now second m = line_after second (collect written 0 p)).
  { intros m QM MN. assert (O : 3 <= occurrences s7_edge p (m - p)) by (replace (m - p) with ((q - p) + (m - q)) by lia; rewrite occ_app; lia).
    pose proof (line_now SP CL second m) as L. cbv zeta in L. destruct (prev3 s7_edge m) as [t|] eqn:P.
    - destruct (prev3_near _ _ _ P) as (P1 & P2 & P3).
      assert (PT : p <= t).
      { destruct (Nat.le_gt_cases p t); [assumption|]. replace (m - t) with (1 + ((p - S t) + (m - p))) in P3 by lia. rewrite !occ_app in P3. cbn [occurrences] in P3.
        rewrite Nat.add_0_r, P2 in P3. replace (t + 1 + (p - S t)) with p in P3 by lia. lia. }
      rewrite L. set (k := if _ : bool then _ else _). assert (K : p <= k <= S t) by (unfold k; match goal with |- context [if ?b then _ else _] => destruct b end; lia).
      replace k with (p + (k - p)) by lia. rewrite collect_app, (collect_none _ written (0 + p)), app_nil_r; [reflexivity|]. intros u U. apply NW. lia.
    - pose proof (prev3_few _ _ P) as F. replace m with (p + (m - p)) in F by lia. rewrite occ_app in F. cbn [Nat.add] in F. lia. }
  destruct RT as (u & v & U1 & U2 & U3 & U4). split; [apply T; lia|].
  set (xb := fun t => {| bsi_a := s7_pix (x t); bsi_b := s7_sys (x t); bsi_i := line_tap_now second t;
    bsi_rt := (if second then s7_srt else s7_mrt) (x t); bsi_rd := (if second then s7_srd else s7_mrd) (x t) |}).
  assert (R : line_read second n = bus_read xb n).
  { unfold line_read, bus_read, s7_sread, s7_mread. clear. assert (S : (if second then s7_sbs else s7_mbs) (s7_run x n) = bs_run 128 xb n).
    { induction n as [|n IH]; [destruct second; reflexivity|]. assert (ST : s7_run x (S n) = s7_step (s7_run x n) (x n)) by reflexivity. rewrite ST.
      assert (SB : bs_run 128 xb (S n) = bs_step 128 (bs_run 128 xb n) (xb n)) by reflexivity. rewrite SB, <- IH. unfold s7_step, xb, line_tap_now. destruct second; reflexivity. }
    rewrite <- S. destruct second; reflexivity. }
  rewrite R. apply (C101_current xb QR q n).
  - change (occurrences s7_edge 0 q <> 0). replace q with (p + (q - p)) by lia. rewrite occ_app. cbn [Nat.add]. lia.
  - exists u, v. split; [exact U1|]. split; [exact U2|]. split; [exact U3|]. exact U4.
  - intros t Ht _. unfold bus. cbn [xb bsi_i]. apply T; lia.
Qed.

(** Moving both lines together keeps their distance: exactly once they have settled, and never more than one tap off
    in between. *)
Theorem C128_distance : spaced -> clear_writes -> forall p n, p <= n -> 3 <= occurrences s7_edge p (n - p) ->
  (forall t w, p <= t < n -> written t = Some w -> (w = 10 \/ w = 20)%Z) ->
  exists e, (-1 <= e <= 1)%Z /\
  ((line_tap_now true n - line_tap_now false n) mod 32 = (line_after true (collect written 0 p) - line_after false (collect written 0 p) + e) mod 32)%Z.
Proof.
  intros SP CL p n PN H BOTH.
  assert (D : forall k, p <= k <= n -> ((line_after true (collect written 0 k) - line_after false (collect written 0 k)) mod 32 =
    (line_after true (collect written 0 p) - line_after false (collect written 0 p)) mod 32)%Z).
  { intros k [K1 K2]. induction K1 as [|k K1 IH]; [reflexivity|]. rewrite <- IH by lia. unfold line_after. cbn [collect Nat.add]. destruct (written k) as [w|] eqn:W; [|rewrite app_nil_r; reflexivity].
    rewrite !fold_left_app. cbn [fold_left]. destruct (BOTH k w ltac:(lia) W) as [-> | ->].
    - change (line_bits true 10) with (false, true, false). change (line_bits false 10) with (false, true, false). cbn [tap_after].
      rewrite <- Zminus_mod. f_equal. lia.
    - change (line_bits true 20) with (false, false, true). change (line_bits false 20) with (false, false, true). cbn [tap_after].
      rewrite <- Zminus_mod. f_equal. lia. }
  pose proof (line_now SP CL true n) as L1. pose proof (line_now SP CL false n) as L0. cbv zeta in L1, L0.
  destruct (prev3 s7_edge n) as [t|] eqn:P.
  2:{ pose proof (prev3_few _ _ P) as F. replace n with (p + (n - p)) in F by lia. rewrite occ_app in F. cbn [Nat.add] in F. lia. }
  destruct (prev3_near _ _ _ P) as (P1 & P2 & P3).
  assert (PT : p <= t).
  { destruct (Nat.le_gt_cases p t); [assumption|]. replace (n - t) with (1 + ((p - S t) + (n - p))) in P3 by lia. rewrite !occ_app in P3. cbn [occurrences] in P3.
    rewrite Nat.add_0_r, P2 in P3. replace (t + 1 + (p - S t)) with p in P3 by lia. lia. }
  set (k1 := if line_won x 3 4 t then S t else t) in L1. set (k0 := if line_won x 1 2 t then S t else t) in L0.
  assert (ONE : forall second, exists d, (-1 <= d <= 1)%Z /\ (line_after second (collect written 0 (S t)) = (line_after second (collect written 0 t) + d) mod 32 \/
     d = 0 /\ line_after second (collect written 0 (S t)) = line_after second (collect written 0 t))%Z).
  { intros second. unfold line_after. cbn [collect Nat.add]. destruct (written t) as [w|] eqn:W; [|exists 0%Z; split; [lia|]; right; rewrite app_nil_r; auto].
    rewrite fold_left_app. cbn [fold_left]. destruct (BOTH t w ltac:(lia) W) as [-> | ->]; [exists 1%Z|exists (-1)%Z]; (split; [lia|]); left; destruct second; reflexivity. }
  rewrite L1, L0. destruct (line_won x 3 4 t), (line_won x 1 2 t); unfold k1, k0.
  - exists 0%Z. split; [lia|]. rewrite Z.add_0_r. apply D. lia.
  - destruct (ONE true) as (d & B & [-> | [_ ->]]).
    + exists d. split; [exact B|]. rewrite Zminus_mod_idemp_l.
      replace (line_after true (collect written 0 t) + d - line_after false (collect written 0 t))%Z with (line_after true (collect written 0 t) - line_after false (collect written 0 t) + d)%Z by ring.
      rewrite <- Zplus_mod_idemp_l, D by lia. apply Zplus_mod_idemp_l.
    + exists 0%Z. split; [lia|]. rewrite Z.add_0_r. apply D. lia.
  - destruct (ONE false) as (d & B & [-> | [_ ->]]).
    + exists (- d)%Z. split; [lia|]. rewrite Zminus_mod_idemp_r.
      replace (line_after true (collect written 0 t) - (line_after false (collect written 0 t) + d))%Z with (line_after true (collect written 0 t) - line_after false (collect written 0 t) + - d)%Z by ring.
      rewrite <- Zplus_mod_idemp_l, D by lia. apply Zplus_mod_idemp_l.
    + exists 0%Z. split; [lia|]. rewrite Z.add_0_r. apply D. lia.
  - exists 0%Z. split; [lia|]. rewrite Z.add_0_r. apply D. lia.
Qed.
End Words.

(** Both clocks at every instant.  Reset, four steps of the second line, then both up, both up, both down; the races
    of the two lines go against each other. *)
Definition ex_s7 (ws : list (nat * Z)) (race : Z) (n : nat) : s7_in :=
  let w := find (fun k => Nat.eqb (fst k) n) ws in
  {| s7_sys := true; s7_pix := true; s7_re := match w with Some _ => true | None => false end; s7_r := match w with Some k => snd k | None => 0%Z end;
     s7_race := race; s7_mrt := Nat.even n; s7_mrd := Z.of_nat n; s7_srt := Nat.odd n; s7_srd := 5%Z |}.
Definition ex_s7_ws : list (nat * Z) := [(2, 1%Z); (5, 8%Z); (7, 8%Z); (9, 8%Z); (11, 8%Z); (13, 10%Z); (16, 10%Z); (18, 20%Z)].
Definition ex_s7_a := ex_s7 ex_s7_ws 24.
Lemma ex_s7_wr : forall ws race n w, written (ex_s7 ws race) n = Some w -> In (n, w) ws.
Proof.
  intros ws race n w. unfold written, ex_s7. cbn [s7_sys s7_re s7_r andb]. destruct (find _ ws) as [[m v]|] eqn:F; [|discriminate]. intros E. injection E as <-.
  apply find_some in F as [F1 F2]. apply Nat.eqb_eq in F2. cbn in F2. subst m. exact F1.
Qed.
Lemma ex_s7_none : forall ws race n, written (ex_s7 ws race) n <> None -> exists w, In (n, w) ws.
Proof. intros ws race n H. destruct (written (ex_s7 ws race) n) as [w|] eqn:W; [|tauto]. exists w. exact (ex_s7_wr ws race n w W). Qed.
Example C128_case : spaced ex_s7_a /\ clear_writes ex_s7_a /\ quick_reader (s7_edge ex_s7_a) (s7_soft ex_s7_a) /\
  (forall t, 20 <= t < 50 -> written ex_s7_a t = None) /\ 3 <= occurrences (s7_edge ex_s7_a) 20 (23 - 20) /\ round_trip (s7_edge ex_s7_a) (s7_soft ex_s7_a) 23 50 /\
  (forall t w, 13 <= t < 50 -> written ex_s7_a t = Some w -> (w = 10 \/ w = 20)%Z).
Proof.
  split.
  { intros p q L P Q. destruct (ex_s7_none _ _ _ P) as (v & V). destruct (ex_s7_none _ _ _ Q) as (w & W). exists (S p). split; [|reflexivity].
    cbn [In ex_s7_ws] in V, W. repeat (destruct V as [V|V]; [injection V as <- _|]); try destruct V; repeat (destruct W as [W|W]; [injection W as <- _; lia|]); destruct W. }
  split.
  { intros n w W second. apply ex_s7_wr in W. cbn [In ex_s7_ws] in W. repeat (destruct W as [W|W]; [injection W as _ <-; destruct second; reflexivity|]). destruct W. }
  split; [intros u m H; rewrite !ex_all in * by reflexivity; lia|].
  split. { intros t T. destruct (written ex_s7_a t) as [w|] eqn:W; [|reflexivity]. apply ex_s7_wr in W. cbn [In ex_s7_ws] in W.
    repeat (destruct W as [W|W]; [injection W as <- _; lia|]). destruct W. }
  split; [rewrite ex_all by reflexivity; lia|]. split; [exists 27, 30; rewrite !ex_all by reflexivity; lia|].
  intros t w T W. apply ex_s7_wr in W. cbn [In ex_s7_ws] in W. repeat (destruct W as [W|W]; [injection W as <- <-; lia|]). destruct W.
Qed.
(** The settled taps and readings, and an instant at which the distance is one off. *)
Example C128_case_values : (line_read ex_s7_a false 50 = 1 /\ line_read ex_s7_a true 50 = 5 /\
  line_tap_now ex_s7_a false 16 = 0 /\ line_tap_now ex_s7_a true 16 = 5)%Z.
Proof. vm_compute. repeat split. Qed.

(** Neither condition can be dropped.  With a clock of the delay lines at the later write itself (which would do if all
    toggles were sampled alike), a step after a reset can be lost. *)
Theorem C128_next_edge_lost : exists x p q n, p < q /\ (forall t, written x t <> None -> t = p \/ t = q) /\ (exists t, p < t <= q /\ s7_edge x t = true) /\ clear_writes x /\
  line_tap_now x false n = 0%Z /\ line_after false (collect (written x) 0 n) = 1%Z /\ 3 <= occurrences (s7_edge x) (S q) (n - S q).
Proof.
  exists (ex_s7 [(2, 1%Z); (3, 2%Z)] 2), 2, 3, 20. split; [lia|]. split; [|split; [exists 3; split; [lia|reflexivity]|]].
  { intros t T. destruct (ex_s7_none _ _ _ T) as (w & W). cbn [In] in W. repeat (destruct W as [W|W]; [injection W as <- _; lia|]). destruct W. }
  split; [intros n w W second; apply ex_s7_wr in W; cbn [In] in W; repeat (destruct W as [W|W]; [injection W as _ <-; destruct second; reflexivity|]); destruct W|].
  split; [vm_compute; reflexivity|]. split; [vm_compute; reflexivity|]. rewrite ex_all by reflexivity. lia.
Qed.
(** A word that tells a line two things at once has no definite meaning: the same writes at the same instants leave
    different taps. *)
Theorem C128_two_bits : exists x y n, (forall t, written x t = written y t /\ s7_edge x t = s7_edge y t /\ s7_soft x t = s7_soft y t) /\ spaced x /\
  line_tap_now x false n <> line_tap_now y false n /\ (forall t, 10 <= t -> written x t = None).
Proof.
  exists (ex_s7 [(2, 6%Z)] 4), (ex_s7 [(2, 6%Z)] 0), 20. split; [intros t; repeat split|]. split; [|split; [vm_compute; discriminate|]].
  - intros p q L P Q. destruct (ex_s7_none _ _ _ P) as (v & V). destruct (ex_s7_none _ _ _ Q) as (w & W). cbn [In] in V, W.
    destruct V as [V|[]], W as [W|[]]. injection V as <- _. injection W as <- _. lia.
  - intros t T. destruct (written _ t) as [w|] eqn:W; [|reflexivity]. apply ex_s7_wr in W. cbn [In] in W. destruct W as [W|[]]. injection W as <- _. lia.
Qed.

Print Assumptions C128_taps_now.
Print Assumptions C128_settled.
Print Assumptions C128_distance.
Print Assumptions C128_next_edge_lost.
Print Assumptions C128_two_bits.
