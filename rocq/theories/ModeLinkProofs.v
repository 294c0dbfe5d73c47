(** Lemmas for C129: a stream that is settled from some clock on, after anything else, seen by a receiver that has been
    running all the time. *)
From Coq Require Import ZArith List Bool Lia Arith.
From Verif Require Import Hdl Trace TmdsModel TmdsSpec CharSyncModel ChanSyncModel ChanSyncProofs AnalysisModel TimingModel TimingSpec TimingProofs VideoOutModel VideoOutProofs
  HdmiModel HdmiProofs LinkModel LinkProofs LinkProps PhyModel PhyProps StartupProofs.
Import ListNotations.
Open Scope Z_scope.

Lemma rx_ok_run : forall s0 raw n, rx_ok s0 -> rx_ok (rx_run s0 raw n).
Proof.
  intros s0 raw n H k K. split.
  - rewrite (rx_cs_run s0 raw k n K). apply (cs_cnt_run 8 (rx_cs_of s0 k) (fun t => raw t k) n); [lia|]. apply (H k K).
  - rewrite (rx_cy_run s0 raw n). apply (wf_all 3 8 ltac:(lia) (rx_cy s0)); [|exact K]. intros j Hj. apply (proj2 (H j Hj)).
Qed.
(** A link may be looked at from any later clock on. *)
Lemma link_at_later : forall N d o L Lmin raw s0, link_at N o L Lmin raw s0 ->
  link_at (N + d) o L Lmin (fun n k => raw (d + n)%nat k) (rx_run s0 raw d).
Proof.
  intros N d o L Lmin raw s0 (HL & HR & HS). split; [exact HL|]. split.
  - intros k K. destruct (HR k K) as [R1 R2]. split; [intros n; apply R1|]. intros b B.
    rewrite (serial_from (fun n => raw n k) d b). rewrite R2 by lia. f_equal. lia.
  - exact (rx_ok_run s0 raw d HS).
Qed.

Section Settled.
Variable p : fparam.
Hypothesis lk : link_ok p.
Variable w : nat -> Z.
Variable o : nat -> px.
(** The first clock of a frame. *)
Variable F0 : nat.
Hypothesis px_range : forall n, 0 <= px_r (o n) < 256 /\ 0 <= px_g (o n) < 256 /\ 0 <= px_b (o n) < 256.
Hypothesis shows : forall k, px_de (o (F0 + k)%nat) = tx_de p (S k) /\ px_hs (o (F0 + k)%nat) = tx_hs p (S k) /\ px_vs (o (F0 + k)%nat) = tx_vs p (S k).
Hypothesis data : forall k, px_de (o (F0 + k)%nat) = true -> let d := w (pixels_before p k) in
  px_r (o (F0 + k)%nat) = slice 0 8 d /\ px_g (o (F0 + k)%nat) = slice 8 8 d /\ px_b (o (F0 + k)%nat) = slice 16 8 d.
Variable L : nat -> nat.
Variable Lmin : nat.

Lemma link_settled_0 : forall raw s0, link_at F0 o L Lmin raw s0 ->
  exists D, (forall k, (k < 3)%nat -> (L k / 10 + 7 < D <= L k / 10 + 15)%nat) /\
  forall n, (clk p 2 0 (p_hres p) <= n)%nat ->
  let q := rx_sp (rx_run s0 raw (n - 1 + D)) in
  sp_valid q = true /\ sp_de q = tx_de p n /\ sp_hsync q = tx_hs p n /\ sp_vsync q = tx_vs p n /\
  (tx_de p n = true ->
   let d := w (pixels_before p (n - 1)) in sp_r q = slice 0 8 d /\ sp_g q = slice 8 8 d /\ sp_b q = slice 16 8 d).
Proof.
  intros raw s0 (HL & Hraw & Hs0). pose proof lk as LK. destruct LK as [ok' ? ? ? ? ?]. destruct ok' as [? ? ? ? ? ? ? ?].
  pose proof (clk_z p lk 1 0 0 ltac:(lia) ltac:(lia) ltac:(lia)) as Z1.
  set (HV := (p_hscan p + 1) * (p_vscan p + 1)) in *.
  assert (POS : 2 * (p_hres p + 30) <= HV) by (unfold HV; nia).
  assert (E1 : (1 * (p_vscan p + 1) + 0) * (p_hscan p + 1) = HV) by (unfold HV; ring).
  assert (Hraw' : forall k, (k < 3)%nat -> bit_delayed (fun n => tx_word o k (F0 + n)%nat) (L k) (fun t => raw t k)).
  { intros k K. destruct (Hraw k K) as [R1 R2]. split; [exact R1|]. intros t Ht. rewrite R2 by exact Ht. rewrite serial_from. f_equal. lia. }
  destruct (link_joined o px_range F0 L Lmin HL raw Hraw' s0 Hs0
    (clk p 1 0 0 - 31) (clk p 1 0 0 - 1) (clk p 1 0 0 - 1 + Z.to_nat (p_hres p)) ltac:(lia) ltac:(lia)) as (D & B & P & Sy).
  - intros k Hk. destruct (shows k) as (-> & _).
    replace (S k) with (clk p (1 - 1) (p_vscan p) (p_hscan p + 1 - (Z.of_nat (clk p 1 0 0) - Z.of_nat (S k)))).
    + rewrite clk_de by (try exact lk; lia). destruct (Z.ltb_spec (p_vscan p) (p_vres p)); [lia|]. apply andb_false_r.
    + apply Nat2Z.inj. rewrite clk_z by (try exact lk; lia). rewrite Z1. lia.
  - intros k Hk. destruct (shows k) as (-> & _).
    replace (S k) with (clk p 1 0 (0 + Z.of_nat (S k - clk p 1 0 0))).
    + rewrite clk_de by (try exact lk; lia). apply andb_true_iff. split; apply Z.ltb_lt; lia.
    + rewrite clk_succ_x by (try exact lk; lia). lia.
  - intros k Hk. destruct (shows k) as (-> & _).
    replace (S k) with (clk p 1 0 (0 + Z.of_nat (S k - clk p 1 0 0))).
    + rewrite clk_de by (try exact lk; lia). apply andb_false_iff. left. apply Z.ltb_ge; lia.
    + rewrite clk_succ_x by (try exact lk; lia). lia.
  - exists D. split; [exact B|].
    pose proof (clk_z p lk 2 0 (p_hres p) ltac:(lia) ltac:(lia) ltac:(lia)) as Z2.
    pose proof (clk_z p lk 2 0 (p_hres p - 1) ltac:(lia) ltac:(lia) ltac:(lia)) as Z3.
    assert (E2 : (2 * (p_vscan p + 1) + 0) * (p_hscan p + 1) = HV + HV) by (unfold HV; ring).
    assert (Hf : S (clk p 2 0 (p_hres p - 1)) = clk p 2 0 (p_hres p)) by lia.
    intros n Hn q. destruct (shows (n - 1)%nat) as (Q1 & _).
    pose proof (data (n - 1)%nat) as Q4. cbv zeta in Q4.
    destruct (P (n - 1)%nat ltac:(lia)) as (P1 & P2 & P3). cbv zeta in P1, P2, P3.
    fold q in P1, P2, P3. rewrite Q1 in P2, P3. replace (S (n - 1)) with n in * by lia.
    destruct (Sy (fun k => tx_hs p (S k)) (fun k => tx_vs p (S k)) false false) with
      (f := (clk p 2 0 (p_hres p - 1) - 1)%nat) (n := (n - 1)%nat) as [Y1 Y2].
    + intros m. destruct (shows m) as (_ & -> & ->). rewrite !xorb_false_r. auto.
    + intros a m Ha A1 A2. destruct (shows a) as (Q & _). rewrite Q in Ha. apply (tx_away p lk (S a) (S m) Ha); lia.
    + lia.
    + destruct (shows (clk p 2 0 (p_hres p - 1) - 1)%nat) as (-> & _). replace (S (clk p 2 0 (p_hres p - 1) - 1)) with (clk p 2 0 (p_hres p - 1)) by lia.
      rewrite clk_de by (try exact lk; lia). apply andb_true_iff. split; apply Z.ltb_lt; lia.
    + destruct (shows (S (clk p 2 0 (p_hres p - 1) - 1))%nat) as (-> & _). replace (S (S (clk p 2 0 (p_hres p - 1) - 1))) with (clk p 2 0 (p_hres p)) by lia.
      rewrite clk_de by (try exact lk; lia). apply andb_false_iff. left. apply Z.ltb_ge; lia.
    + lia.
    + cbv zeta in Y1, Y2. fold q in Y1, Y2. replace (S (n - 1)) with n in Y1, Y2 by lia.
      split; [exact P1|]. split; [exact P2|]. split; [exact Y1|]. split; [exact Y2|].
      intros TT. destruct (P3 TT) as (R & G & Bl). destruct (Q4 ltac:(rewrite Q1; exact TT)) as (R' & G' & B').
      cbv zeta. rewrite <- R', <- G', <- B'. auto.
Qed.

(** The receiver was started at clock [N] of the transmitter. *)
Lemma link_settled : forall N raw s0, (N <= F0)%nat -> link_at N o L Lmin raw s0 ->
  exists D D', (forall k, (k < 3)%nat -> (L k / 10 + 7 < D <= L k / 10 + 15)%nat) /\ Z.of_nat D' = Z.of_nat F0 + Z.of_nat D - 1 - Z.of_nat N /\
  forall n, (clk p 2 0 (p_hres p) <= n)%nat ->
  let q := rx_sp (rx_run s0 raw (n + D')) in
  sp_valid q = true /\ sp_de q = tx_de p n /\ sp_hsync q = tx_hs p n /\ sp_vsync q = tx_vs p n /\
  (tx_de p n = true ->
   let d := w (pixels_before p (n - 1)) in sp_r q = slice 0 8 d /\ sp_g q = slice 8 8 d /\ sp_b q = slice 16 8 d).
Proof.
  intros N raw s0 HN H. pose proof (link_at_later N (F0 - N) o L Lmin raw s0 H) as H'. replace (N + (F0 - N))%nat with F0 in H' by lia.
  destruct (link_settled_0 _ _ H') as (D & B & P). exists D, (F0 - N + D - 1)%nat. pose proof (B 0%nat ltac:(lia)). split; [exact B|]. split; [lia|].
  intros n Hn q. specialize (P n Hn). cbv zeta in P. unfold rx_run in P. rewrite <- (at_shift _ _ rx_step) in P.
  assert (N1 : (1 <= n)%nat) by (unfold clk in Hn; pose proof (clk_z p lk 2 0 (p_hres p) ltac:(lia) ltac:(lia) ltac:(destruct lk; lia)); destruct lk as [[] ? ? ? ? ?]; nia).
  replace (F0 - N + (n - 1 + D))%nat with (n + (F0 - N + D - 1))%nat in P by lia. exact P.
Qed.
End Settled.
