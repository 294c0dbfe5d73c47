(** Lemmas about a receiver built with hdmi=True behind an HDMI source. *)
From Coq Require Import ZArith List Bool Lia Arith.
From Verif Require Import Hdl TmdsModel TmdsSpec TmdsProofs CharSyncModel CharSyncSpec CharSyncProofs CharSyncProps
  ChanSyncModel ChanSyncProofs ChanSyncProps AnalysisModel AnalysisProps DelayModel Terc4Model Terc4Spec Terc4Proofs
  HdmiModel HdmiProofs HdmiRxModel HdmiRxProps Terc4Props HdmiSrcSpec.
Import ListNotations.
Open Scope nat_scope.

(** ** Words *)

Definition pixel_wordb (w : Z) : bool := memz w pixel_words.

Lemma pixel_words_legal : forall w, In w pixel_words -> legal_pixel w.
Proof.
  intros w H. unfold pixel_words in H. apply in_flat_map in H as (d & D & H). apply in_map_iff in H as (cnt & <- & _).
  exists d, cnt. split; [apply in_zrange in D; exact D|reflexivity].
Qed.
Lemma memz_legal : forall w, memz w pixel_words = true -> legal_pixel w.
Proof. intros w H. apply pixel_words_legal, memz_in, H. Qed.

Lemma terc4_legal : forall d, (0 <= d < 16)%Z -> legal_pixel (terc4 d).
Proof.
  intros d H. apply memz_legal. pose proof (forallb_zrange 0 16 (fun d => memz (terc4 d) pixel_words) ltac:(vm_compute; reflexivity) d ltac:(lia)) as A.
  exact A.
Qed.
Lemma video_guard_legal : forall k, legal_pixel (video_guard k).
Proof. intros [|[|k]]; apply memz_legal; vm_compute; reflexivity. Qed.
Lemma data_guard_legal : legal_pixel data_guard.
Proof. apply memz_legal. vm_compute. reflexivity. Qed.

(** Every word is legal, and is a control word exactly in control periods. *)
Lemma sends_legal : forall s k w, sends s k w -> if is_ctl s then legal_control w else legal_pixel w.
Proof.
  intros s k w H. destruct s; cbn [is_ctl sends] in *.
  - destruct H as [C ->]. eexists. split; [exact C|reflexivity].
  - subst w. apply video_guard_legal.
  - destruct H as (D & cnt & ->). eexists _, cnt. split; [exact D|reflexivity].
  - destruct k; [destruct H as [D ->]; apply terc4_legal, D|subst w; apply data_guard_legal].
  - destruct H as [D ->]. apply terc4_legal, D.
  - destruct k; [destruct H as [D ->]; apply terc4_legal, D|subst w; apply data_guard_legal].
Qed.

(** Bytes. *)
Lemma dec_data_pixel : forall d cnt, (0 <= d < 256)%Z -> dec_data (of_bits (fst (dvi_pixel d cnt))) = d.
Proof.
  intros d cnt D. rewrite dvi_pixel_sgn.
  pose proof (forallb_zrange 0 256 (fun d => forallb (fun c => (dec_data (of_bits (fst (dvi_pixel d c))) =? d)%Z) [-1; 0; 1]%Z)
    ltac:(vm_compute; reflexivity) d ltac:(lia)) as A. cbv beta in A. rewrite forallb_forall in A.
  apply Z.eqb_eq. apply A. destruct cnt; cbn; auto.
Qed.
Lemma dec_data_control : forall c, (0 <= c < 4)%Z -> dec_data (of_bits (dvi_control c)) = ctl_byte c.
Proof. intros c C. assert (c = 0 \/ c = 1 \/ c = 2 \/ c = 3)%Z as [->|[->|[->| ->]]] by lia; reflexivity. Qed.

(** ** One channel *)

(** Lock and words of one channel: word [m] is at the decoder [L / 10 + 2] clocks later. *)
Lemma word_channel : forall W : nat -> Z, (forall n, legal_word (W n)) ->
  forall L x, bit_delayed W L x ->
  forall st0, (0 <= cs_cnt st0 <= 7)%Z ->
  forall a, 1 <= a -> (forall j, j <= 8 -> legal_control (W (a + j))) ->
  forall m, a + 14 <= m ->
  let st := cs_run 8 st0 x (m + L / 10 + 2) in cs_synced st = true /\ cs_data st = W m.
Proof.
  intros W HW L x HL st0 Hst0 a A1 Ha m Hm st.
  set (w := if Nat.eqb (L mod 10) 0 then L / 10 else S (L / 10)).
  set (s := 10 * w - L).
  assert (DM := Nat.div_mod L 10 ltac:(lia)). assert (ML := Nat.mod_upper_bound L 10 ltac:(lia)).
  assert (WS : L + s = 10 * w /\ s < 10 /\ (s = 0 <-> L mod 10 = 0)).
  { unfold s, w. destruct (Nat.eqb_spec (L mod 10) 0); lia. }
  destruct WS as (E & Hs & Z0).
  set (st1 := cs_run 8 st0 x w).
  assert (R : forall n, cs_run 8 st0 x (w + n) = cs_run 8 st1 (misaligned W s) n).
  { intros n. unfold st1, cs_run. rewrite at_shift. apply at_ext. intros k _. apply (bit_delayed_words _ _ _ HL w s E Hs). }
  assert (C1 : (0 <= cs_cnt st1 <= 8 - 1)%Z) by (apply cs_cnt_run; lia).
  assert (LK : forall t, a + 11 <= t ->
            cs_synced (cs_run 8 st1 (misaligned W s) t) = true /\
            cs_sel (cs_run 8 st1 (misaligned W s) t) = ((10 - Z.of_nat s) mod 10)%Z).
  { intros t Ht. apply (C07_lock_acquired _ HW 8 ltac:(lia) s Hs st1 C1 a); try lia. intros j Hj. apply Ha. lia. }
  unfold st. destruct (Nat.eqb_spec (L mod 10) 0) as [Z|Z].
  - replace (m + L / 10 + 2) with (w + S (m + 1)) by (unfold w; destruct (Nat.eqb_spec (L mod 10) 0); lia).
    rewrite R. split; [apply LK; lia|]. destruct (LK (m + 1) ltac:(lia)) as [A B].
    destruct (C08_lock_stable _ HW 8 ltac:(lia) s Hs st1 (m + 1) ltac:(lia) A B (m + 1) ltac:(lia)) as (_ & _ & D).
    rewrite D. destruct (Nat.eqb_spec s 0); [|lia]. f_equal. lia.
  - replace (m + L / 10 + 2) with (w + S m) by (unfold w; destruct (Nat.eqb_spec (L mod 10) 0); lia).
    rewrite R. split; [apply LK; lia|]. destruct (LK m ltac:(lia)) as [A B].
    destruct (C08_lock_stable _ HW 8 ltac:(lia) s Hs st1 m ltac:(lia) A B m ltac:(lia)) as (_ & _ & D).
    rewrite D. destruct (Nat.eqb_spec s 0); [lia|reflexivity].
Qed.

(** ** Three channels *)

Lemma terc4_nibble : forall d x, (0 <= d < 16)%Z -> t4_nibble (terc4 d) x = d.
Proof.
  intros d x R. rewrite nibble_find.
  assert (A : forallb (fun d => match find (fun e => (terc4 d =? terc4 e)%Z) (zrange 0 16) with Some e => (e =? d)%Z | None => false end) (zrange 0 16) = true)
    by (vm_compute; reflexivity).
  pose proof (forallb_zrange _ _ _ A d ltac:(lia)) as B. cbv beta in B. clear A. rename B into A. destruct (find _ _); [apply Z.eqb_eq, A|discriminate].
Qed.

Section Src.
Variable Q : nat -> slot.
Variable W : nat -> nat -> Z.
Hypothesis HQ : hdmi_source Q W.
Variable L : nat -> nat.
Variable Lmin : nat.
Hypothesis HL : forall k, k < 3 -> Lmin <= L k <= Lmin + 70.
Variable raw : nat -> nat -> Z.
Hypothesis Hraw : forall k, k < 3 -> bit_delayed (W k) (L k) (fun t => raw t k).
Variable s0 : rh_st.
Hypothesis Hs0 : rx_ok (rh_rx s0).
Hypothesis H0 : one_deep s0.
Variables a b1 b2 : nat.
Hypothesis Ha : 1 <= a.
Hypothesis H1 : a + 30 <= b1.
Hypothesis H2 : b1 + 24 <= b2.
Hypothesis Blank1 : forall n, a <= n < b1 -> is_ctl (Q n) = true.
Hypothesis Active : forall n, b1 <= n < b2 -> is_ctl (Q n) = false.
Hypothesis Blank2 : forall n, b2 <= n < b2 + 24 -> is_ctl (Q n) = true.
Let rx n := rx_run (rh_rx s0) raw n.

Lemma src_legal : forall k n, k < 3 -> if is_ctl (Q n) then legal_control (W k n) else legal_pixel (W k n).
Proof. intros k n K. apply (sends_legal _ k), HQ, K. Qed.

Lemma src_dec_in : forall k m, k < 3 -> a + 14 <= m ->
  rx_dec_in (rx (m + L k / 10 + 2)) k = {| di_valid := true; di_word := W k m |}.
Proof.
  intros k m K M. unfold rx_dec_in, rx. rewrite rx_cs_run by exact K.
  destruct (word_channel (W k)) with (L := L k) (x := fun t => raw t k) (st0 := rx_cs_of (rh_rx s0) k) (a := a) (m := m) as [A B].
  - intros n. pose proof (src_legal k n K) as E. unfold legal_word. destruct (is_ctl (Q n)); auto.
  - apply Hraw, K.
  - apply Hs0, K.
  - exact Ha.
  - intros j J. pose proof (src_legal k (a + j) K) as E. rewrite Blank1 in E by lia. exact E.
  - exact M.
  - rewrite A, B. reflexivity.
Qed.

Lemma src_dec : forall k m, k < 3 -> a + 14 <= m ->
  let o := rx_dec_of (rx (m + L k / 10 + 3)) k in
  d_valid o = true /\ d_raw o = W k m /\ d_d o = dec_data (W k m) /\ d_de o = negb (is_ctl (Q m)) /\
  d_c o = snd (dec_ctl (W k m) (d_c (rx_dec_of (rx (m + L k / 10 + 2)) k))).
Proof.
  intros k m K M o. unfold o. replace (m + L k / 10 + 3) with (S (m + L k / 10 + 2)) by lia.
  unfold rx. rewrite rx_dec_S by exact K. fold (rx (m + L k / 10 + 2)). rewrite src_dec_in by assumption.
  unfold dec_step. cbn [d_valid d_raw d_d d_de d_c di_valid di_word]. repeat split.
  pose proof (src_legal k m K) as E. rewrite dec_ctl_find. destruct (is_ctl (Q m)).
  - apply find_control in E as (c & ->). reflexivity.
  - destruct (find _ _) as [c|] eqn:F; [|reflexivity]. exfalso. apply (pixel_word_facts _ E). apply find_control. exists c. exact F.
Qed.

Let C0 := a + 14 + Lmin / 10 + 3.
Let skew k := L k / 10 - Lmin / 10.
Let inp t := rx_cy_in (rx (C0 + t)).
Let X k t := cyi_data (inp (t + skew k)) k.
Let e t := negb (is_ctl (Q (a + 14 + t))).

Lemma src_skew_ok : forall k, k < 3 -> Lmin / 10 <= L k / 10 /\ skew k <= 7.
Proof.
  intros k Hk. unfold skew. specialize (HL k Hk).
  assert (Lmin / 10 <= L k / 10) by (apply Nat.div_le_mono; lia).
  assert (A : L k / 10 <= (Lmin + 7 * 10) / 10) by (apply Nat.div_le_mono; lia).
  rewrite Nat.div_add in A by lia. lia.
Qed.
Lemma src_X : forall k t, k < 3 -> X k t = dec_chan (rx_dec_of (rx (a + 14 + t + L k / 10 + 3)) k).
Proof.
  intros k t Hk. unfold X, inp, rx_cy_in. cbn [cyi_data]. do 3 f_equal. destruct (src_skew_ok k Hk). unfold C0, skew. lia.
Qed.
Lemma src_carries : carries inp 3 skew X e.
Proof.
  split; [reflexivity|]. intros k t Hk. rewrite src_X by exact Hk. cbn [ch_de dec_chan]. apply src_dec; [exact Hk|lia].
Qed.
Lemma src_valid : forall t, 7 <= t -> cyi_valid (inp t) = true.
Proof.
  intros t Ht. unfold inp, rx_cy_in. cbn [cyi_valid].
  assert (V : forall k, k < 3 -> d_valid (rx_dec_of (rx (C0 + t)) k) = true).
  { intros k Hk. destruct (src_skew_ok k Hk).
    replace (C0 + t) with ((a + 14 + t - skew k) + L k / 10 + 3) by (unfold C0, skew in *; lia). apply src_dec; [exact Hk|lia]. }
  rewrite !V by lia. reflexivity.
Qed.

(** Words shown by the channel synchroniser. *)
Lemma src_shown : exists D, (forall k, k < 3 -> L k / 10 + 3 < D <= L k / 10 + 11) /\
  forall n, b2 + 16 <= n ->
  cy_synced (rx_cy (rx (n + D))) = true /\
  forall k, k < 3 -> cy_out (rx_cy (rx (n + D))) k = dec_chan (rx_dec_of (rx (n + L k / 10 + 3)) k).
Proof.
  assert (WF : forall k, k < 3 -> well_formed 8 (cy_buf (rx_cy (rx C0)) k)).
  { intros k Hk. unfold rx. rewrite rx_cy_run.
    apply (wf_all 3 8 ltac:(lia) (rx_cy (rh_rx s0))); [|exact Hk]. intros j Hj. apply (proj2 (Hs0 j Hj)). }
  destruct (C11_skew_removed 3 8 ltac:(lia) ltac:(lia) (rx_cy (rx C0)) WF inp skew X e src_carries 0)
    with (b0 := 0) (b1 := b1 - (a + 14)) (b2 := b2 - (a + 14)) as (T & HT & R); try lia.
  - intros k Hk. destruct (src_skew_ok k Hk). lia.
  - intros t Ht. unfold e. rewrite Blank1 by lia. reflexivity.
  - intros t Ht. unfold e. rewrite Active by lia. reflexivity.
  - unfold e. rewrite Blank2 by lia. reflexivity.
  - assert (RR : forall m, rx_cy (rx (C0 + m)) = cy_run 3 8 (rx_cy (rx C0)) inp m).
    { intros m. unfold rx. rewrite !rx_cy_run. unfold cy_run. rewrite at_shift. reflexivity. }
    pose proof (HT 0 ltac:(lia)) as HT0. destruct (src_skew_ok 0 ltac:(lia)).
    exists (Lmin / 10 + 3 + T). split.
    { intros k Hk. specialize (HT k Hk). destruct (src_skew_ok k Hk). unfold skew in *. lia. }
    intros n Hn. set (m := n + T - (a + 14)).
    replace (n + (Lmin / 10 + 3 + T)) with (C0 + m) by (unfold C0, m; lia). rewrite RR.
    destruct (R m ltac:(unfold m; lia)) as [Sh Sy]. split.
    + apply (Sy (b2 - (a + 14) + 16)).
      * unfold m. lia.
      * unfold e. rewrite Blank2; [reflexivity|]. unfold skew in *. lia.
      * intros j Hj. apply src_valid. lia.
    + intros k Hk. specialize (Sh k Hk). unfold shown in Sh. rewrite Sh, src_X by exact Hk. do 3 f_equal. unfold m. lia.
Qed.

(** The control bits of channel 0: those of the last control character. *)
Lemma src_c0 : forall n, b2 <= n ->
  exists c1 c2, Q (last_ctl Q n) = Ctl (d_c (rx_dec_of (rx (n + L 0 / 10 + 3)) 0)) c1 c2.
Proof.
  intros n N. induction N as [|n N IH].
  - destruct (src_dec 0 b2 ltac:(lia) ltac:(lia)) as (_ & _ & _ & _ & C).
    assert (E : is_ctl (Q b2) = true) by (apply Blank2; lia).
    assert (B : last_ctl Q b2 = b2) by (destruct b2 as [|b]; [reflexivity|]; cbn [last_ctl]; rewrite E; reflexivity).
    rewrite B. rewrite C. pose proof (src_words Q W HQ b2 0 ltac:(lia)) as S0. destruct (Q b2) as [c0 c1 c2| | | | |]; try discriminate.
    cbn [sends nth] in S0. destruct S0 as [R ->]. exists c1, c2. f_equal.
    assert (c0 = 0 \/ c0 = 1 \/ c0 = 2 \/ c0 = 3)%Z as [->|[->|[->| ->]]] by lia; reflexivity.
  - destruct IH as (c1 & c2 & IH). destruct (src_dec 0 (S n) ltac:(lia) ltac:(lia)) as (_ & _ & _ & _ & C).
    replace (S n + L 0 / 10 + 2) with (n + L 0 / 10 + 3) in C by lia. rewrite C. cbn [last_ctl].
    pose proof (src_words Q W HQ (S n) 0 ltac:(lia)) as S0. pose proof (src_legal 0 (S n) ltac:(lia)) as LG.
    destruct (is_ctl (Q (S n))) eqn:E.
    + destruct (Q (S n)) as [d0 d1 d2| | | | |]; try discriminate. cbn [sends nth] in S0. destruct S0 as [R ->].
      exists d1, d2. f_equal. assert (d0 = 0 \/ d0 = 1 \/ d0 = 2 \/ d0 = 3)%Z as [->|[->|[->| ->]]] by lia; reflexivity.
    + exists c1, c2. rewrite IH. f_equal. rewrite dec_ctl_find. destruct (find _ _) as [c|] eqn:F; [|reflexivity].
      exfalso. apply (pixel_word_facts _ LG). apply find_control. exists c. exact F.
Qed.

(** ** The period tracker *)
Section Track.
Variable D : nat.
Hypothesis HD : forall k, k < 3 -> L k / 10 + 3 < D <= L k / 10 + 11.
Hypothesis Sh : forall n, b2 + 16 <= n ->
  cy_synced (rx_cy (rx (n + D))) = true /\
  forall k, k < 3 -> cy_out (rx_cy (rx (n + D))) k = dec_chan (rx_dec_of (rx (n + L k / 10 + 3)) k).
Let o k n := cy_out (rx_cy (rx n)) k.
Let tin n : tx_in := {| txi_valid := cy_synced (rx_cy (rx n)); txi_0 := o 0 n; txi_1 := o 1 n; txi_2 := o 2 n; txi_dvi := false |}.
Let r := stream_of tin.
Let st n := tx_run (rh_t4 s0) tin n.

Lemma trk_word : forall n k, b2 + 16 <= n -> k < 3 -> rx_word r k (n + D) = W k n.
Proof.
  intros n k N K. destruct (Sh n N) as [_ O]. unfold r, stream_of, tin, o. cbn [rx_word txi_0 txi_1 txi_2].
  destruct k as [|[|[|k]]]; try lia; rewrite O by lia; cbn [ch_raw dec_chan]; apply src_dec; lia.
Qed.
Lemma trk_valid : forall n, b2 + 16 <= n -> rx_valid r (n + D) = true.
Proof. intros n N. apply (Sh n N). Qed.

Lemma trk_ctl : forall n, b2 + 16 <= n -> any_cvalid (st (S (n + D))) = is_ctl (Q n).
Proof.
  intros n N. destruct (is_ctl (Q n)) eqn:E.
  - apply any_cv_step. split; [apply trk_valid, N|]. exists 0. split; [lia|]. fold r. rewrite trk_word by lia.
    pose proof (src_legal 0 n ltac:(lia)) as LG. rewrite E in LG. exact LG.
  - apply (not_true _ _ (any_cv_step (rh_t4 s0) tin (n + D))). intros (_ & k & K & C). fold r in C. rewrite trk_word in C by lia.
    pose proof (src_legal k n K) as LG. rewrite E in LG. exact (proj2 (proj2 (proj2 (pixel_word_facts _ LG))) C).
Qed.

Definition all_guard n := forall k, k < 3 -> W k n = video_guard k.
Lemma trk_vgb : forall n, b2 + 16 <= n -> (all_vgb (st (S (n + D))) = true <-> all_guard n).
Proof.
  intros n N. unfold st. rewrite (all_vgb_step (rh_t4 s0) tin (n + D)). fold r. unfold is_video_guard, all_guard. split.
  - intros [_ G] k K. rewrite <- (G k K). symmetry. apply trk_word; assumption.
  - intros G. split; [apply trk_valid, N|]. intros k K. rewrite trk_word by assumption. apply G, K.
Qed.
Lemma trk_dgb : forall n, b2 + 16 <= n -> (c2c1_dgb (st (S (n + D))) = true <-> W 1 n = data_guard /\ W 2 n = data_guard).
Proof.
  intros n N. unfold st. rewrite (dgb_step (rh_t4 s0) tin (n + D)). fold r. unfold is_data_guard.
  rewrite !trk_word by lia. split; [tauto|]. intros G. split; [apply trk_valid, N|exact G].
Qed.

Lemma terc4_not_guard : forall d, (0 <= d < 16)%Z -> terc4 d <> data_guard.
Proof.
  intros d H E. pose proof (forallb_zrange 0 16 (fun d => negb (terc4 d =? data_guard)%Z) ltac:(vm_compute; reflexivity) d ltac:(lia)) as A.
  cbv beta in A. rewrite E, Z.eqb_refl in A. discriminate.
Qed.

(** Only guard bands, and pixels that look like them, are guard bands. *)
Lemma trk_vgb_false : forall n, b2 + 16 <= n -> Q n <> VGuard -> is_pix (Q n) = false -> all_vgb (st (S (n + D))) = false.
Proof.
  intros n N V P. apply (not_true _ _ (trk_vgb n N)). intros G.
  pose proof (src_words Q W HQ n 1 ltac:(lia)) as S1. pose proof (src_words Q W HQ n 2 ltac:(lia)) as S2.
  rewrite (G 1) in S1 by lia. rewrite (G 2) in S2 by lia.
  destruct (Q n); cbn [sends nth is_pix] in *; try discriminate; try congruence.
  - destruct S1 as [R E]. pose proof (video_guard_legal 1) as LG. rewrite E in LG. apply (pixel_word_facts _ LG). eexists. split; [exact R|reflexivity].
  - destruct S1 as [R E]. apply (terc4_not_guard _ R). symmetry. exact E.
Qed.
Lemma trk_vgb_true : forall n, b2 + 16 <= n -> Q n = VGuard -> all_vgb (st (S (n + D))) = true /\ ctl_code (st (S (n + D))) = 0%Z.
Proof.
  intros n N V. assert (G : all_guard n).
  { intros k K. pose proof (src_words Q W HQ n k K) as S1. rewrite V in S1. exact S1. }
  split; [apply trk_vgb; assumption|]. apply guard_ctl0. split; [apply trk_valid, N|]. intros k K. fold r. rewrite trk_word by assumption. apply G, K.
Qed.
Lemma trk_packet : forall n, b2 + 16 <= n -> forall d0 d1 d2, Q n = Packet d0 d1 d2 -> c2c1_dgb (st (S (n + D))) = false.
Proof.
  intros n N d0 d1 d2 E. apply (not_true _ _ (trk_dgb n N)). intros [G _].
  pose proof (src_words Q W HQ n 1 ltac:(lia)) as S1. rewrite E in S1. cbn [sends nth] in S1. destruct S1 as [R E1].
  apply (terc4_not_guard _ R). congruence.
Qed.

Lemma trk_ctl_dgb : forall n, b2 + 16 <= n -> is_ctl (Q n) = true -> c2c1_dgb (st (S (n + D))) = false.
Proof.
  intros n N E. apply (not_true _ _ (trk_dgb n N)). intros [G _]. pose proof (src_legal 1 n ltac:(lia)) as LG. rewrite E, G in LG.
  exact (proj2 (proj2 (proj2 (pixel_word_facts _ data_guard_legal))) LG).
Qed.

(** Where the tracker may be after the word of clock [n]. *)
Definition phase_ok (s : slot) (f : t4_fsm) : Prop :=
  match s with
  | Ctl _ _ _ => f = INIT \/ f = PREAM_T4 \/ f = PREAM_VID
  | VGuard => f = GOING_VID
  | Pix _ _ _ => f = VIDEO
  | Lead _ => f <> VIDEO /\ f <> GOING_VID /\ f <> PREAM_T4 /\ f <> PREAM_VID
  | Packet _ _ _ | Trail _ => f <> VIDEO /\ f <> GOING_VID /\ f <> GOING_T4 /\ f <> PREAM_T4 /\ f <> PREAM_VID
  end.

(** The preamble code is 0 in data islands. *)
Lemma t4_c_keeps_0 : forall ch s v raw, t4_c s = 0%Z -> ctlb raw = false -> t4_c (t4_step ch s v raw) = 0%Z.
Proof.
  intros ch s v x Z C. unfold ctlb, control_tokens in C. cbn [existsb] in C. rewrite orb_false_r in C.
  apply orb_false_iff in C as [C0' C]. apply orb_false_iff in C as [C1 C]. apply orb_false_iff in C as [C2 C3].
  unfold t4_step, control_tokens. cbn [nth]. rewrite C0', C1, C2, C3.
  destruct v; [|reflexivity]. destruct (x =? data_gb)%Z; [reflexivity|]. destruct (x =? video_gb ch)%Z; [reflexivity|]. exact Z.
Qed.
Lemma trk_ctl_code : forall n, b2 + 19 <= n -> in_island (Q n) = true ->
  t4_c (tx_ch1 (st (S (n + D)))) = 0%Z /\ t4_c (tx_ch2 (st (S (n + D)))) = 0%Z.
Proof.
  intros n N. induction N as [|n N IH].
  - intros E. assert (C : is_ctl (Q (b2 + 19)) = true) by (apply Blank2; lia). destruct (Q (b2 + 19)); discriminate.
  - intros E.
    assert (ST : forall k, k < 3 -> rx_word r k (S n + D) = W k (S n)) by (intros k K; apply trk_word; [lia|exact K]).
    pose proof (ST 1 ltac:(lia)) as W1. pose proof (ST 2 ltac:(lia)) as W2.
    pose proof (trk_valid (S n) ltac:(lia)) as V. unfold r, stream_of in W1, W2, V. cbn [rx_word rx_valid] in W1, W2, V.
    change (st (S (S n + D))) with (tx_step (st (S n + D)) (tin (S n + D))). unfold tx_step. cbn [tx_ch1 tx_ch2].
    rewrite V, W1, W2.
    pose proof (src_words Q W HQ (S n) 1 ltac:(lia)) as S1. pose proof (src_words Q W HQ (S n) 2 ltac:(lia)) as S2.
    pose proof (src_order Q W HQ n) as F. rewrite Nat.add_1_r in F.
    destruct (Q (S n)) eqn:E2; try discriminate; cbn [sends nth] in S1, S2.
    + rewrite S1, S2. split; reflexivity.
    + assert (I : in_island (Q n) = true) by (destruct (Q n); try contradiction; reflexivity).
      destruct (IH I) as [I1 I2]. replace (S n + D) with (S (n + D)) by lia.
      assert (C : forall d, (0 <= d < 16)%Z -> ctlb (terc4 d) = false).
      { intros d H. apply not_true_is_false. intros C. apply ctlb_legal in C. exact (proj2 (proj2 (proj2 (pixel_word_facts _ (terc4_legal d H)))) C). }
      destruct S1 as [R1 ->], S2 as [R2 ->]. split; apply t4_c_keeps_0; try assumption; apply C; assumption.
    + rewrite S1, S2. split; reflexivity.
Qed.

Lemma trk_S : forall n, tx_fsm (st (S n)) = tx_next (st n).
Proof. reflexivity. Qed.

Lemma trk_start : phase_ok (Q (b2 + 19)) (tx_fsm (st (b2 + 19 + D + 2))).
Proof.
  assert (C : forall j, j < 4 -> any_cvalid (st (S (b2 + 16 + j + D))) = true /\ all_vgb (st (S (b2 + 16 + j + D))) = false /\
    c2c1_dgb (st (S (b2 + 16 + j + D))) = false).
  { intros j J. assert (E : is_ctl (Q (b2 + 16 + j)) = true) by (apply Blank2; lia). split; [rewrite trk_ctl by lia; exact E|]. split.
    - apply trk_vgb_false; [lia| |]; destruct (Q (b2 + 16 + j)); try discriminate; reflexivity.
    - apply trk_ctl_dgb; [lia|exact E]. }
  assert (E : is_ctl (Q (b2 + 19)) = true) by (apply Blank2; lia). destruct (Q (b2 + 19)); try discriminate. cbn [phase_ok].
  replace (b2 + 19 + D + 2) with (S (S (b2 + 16 + 3 + D))) by lia. rewrite trk_S.
  destruct (C 0 ltac:(lia)) as (A0 & A1 & A2), (C 1 ltac:(lia)) as (B0 & B1 & B2), (C 2 ltac:(lia)) as (D0 & D1 & D2), (C 3 ltac:(lia)) as (F0 & F1 & F2).
  assert (T0 : tx_fsm (st (S (b2 + 16 + 1 + D))) = tx_next (st (S (b2 + 16 + 0 + D)))) by (rewrite <- trk_S; f_equal; f_equal; lia).
  assert (T1 : tx_fsm (st (S (b2 + 16 + 2 + D))) = tx_next (st (S (b2 + 16 + 1 + D)))) by (rewrite <- trk_S; f_equal; f_equal; lia).
  assert (T2 : tx_fsm (st (S (b2 + 16 + 3 + D))) = tx_next (st (S (b2 + 16 + 2 + D)))) by (rewrite <- trk_S; f_equal; f_equal; lia).
  unfold tx_next in *. rewrite F0, F1, F2. rewrite D0, D1, D2 in T2. rewrite B0, B1, B2 in T1. rewrite A0, A1, A2 in T0.
  rewrite T2, T1, T0. clear.
  repeat match goal with
  | |- context [match tx_fsm ?s with _ => _ end] => destruct (tx_fsm s)
  | |- context [if ?b then _ else _] => destruct b
  | _ => tauto
  end.
Qed.

Lemma trk_phase : forall n, b2 + 19 <= n -> phase_ok (Q n) (tx_fsm (st (n + D + 2))).
Proof.
  intros n N. induction N as [|n N IH]; [exact trk_start|].
  replace (S n + D + 2) with (S (S (S n + D))) by lia. rewrite trk_S.
  replace (n + D + 2) with (S (S n + D)) in IH by lia.
  pose proof (src_order Q W HQ n) as F. rewrite Nat.add_1_r in F.
  pose proof (trk_ctl (S n) ltac:(lia)) as CT.
  pose proof (trk_vgb_false (S n) ltac:(lia)) as VF. pose proof (trk_vgb_true (S n) ltac:(lia)) as VT.
  pose proof (trk_packet (S n) ltac:(lia)) as PK. pose proof (trk_ctl_dgb (S n) ltac:(lia)) as CD.
  assert (CC : in_island (Q (S n)) = true -> ctl_code (st (S (S n + D))) = 0%Z).
  { intros I. unfold ctl_code. destruct (trk_ctl_code (S n) ltac:(lia) I) as [-> ->]. reflexivity. }
  destruct (Q n) eqn:E1, (Q (S n)) eqn:E2; cbn [follows] in F; try contradiction;
    cbn [is_ctl is_pix] in *; unfold tx_next; cbn [phase_ok] in *; rewrite CT.
  all: try (specialize (VF ltac:(discriminate) eq_refl); rewrite VF).
  all: try (destruct (VT eq_refl) as [VT1 VT2]; rewrite VT1, VT2).
  all: try (rewrite (PK _ _ _ eq_refl)).
  all: cbn [in_island] in CC; try specialize (CC eq_refl).
  - rewrite (CD eq_refl). destruct IH as [->|[->| ->]]; repeat match goal with |- context [if ?b then _ else _] => destruct b end; tauto.
  - destruct IH as [->|[->| ->]]; reflexivity.
  - destruct IH as [->|[->| ->]]; rewrite ?CC; [repeat split; discriminate| |repeat split; discriminate].
    assert (G : c2c1_dgb (st (S (S n + D))) = true).
    { apply (trk_dgb (S n) ltac:(lia)). pose proof (src_words Q W HQ (S n) 1 ltac:(lia)) as S1. pose proof (src_words Q W HQ (S n) 2 ltac:(lia)) as S2.
      rewrite E2 in S1, S2. split; [exact S1|exact S2]. }
    rewrite G. repeat split; discriminate.
  - rewrite IH. reflexivity.
  - rewrite IH. destruct (all_vgb (st (S (S n + D)))) eqn:G; [|reflexivity]. exfalso. apply (trk_vgb (S n) ltac:(lia)) in G.
    destruct (src_first Q W HQ n E1) as (k & K & NE); rewrite Nat.add_1_r in *; [rewrite E2; reflexivity|]. apply NE, G, K.
  - rewrite IH. tauto.
  - rewrite IH. reflexivity.
  - rewrite ?CC. destruct (tx_fsm (st (S (S n + D)))); try (exfalso; intuition congruence); cbn [Z.eqb]; repeat match goal with |- context [if ?b then _ else _] => destruct b end; repeat split; try discriminate; tauto.
  - rewrite ?CC. destruct (tx_fsm (st (S (S n + D)))); try (exfalso; intuition congruence); cbn [Z.eqb]; repeat match goal with |- context [if ?b then _ else _] => destruct b end; repeat split; try discriminate; tauto.
  - rewrite ?CC. destruct (tx_fsm (st (S (S n + D)))); try (exfalso; intuition congruence); cbn [Z.eqb]; repeat match goal with |- context [if ?b then _ else _] => destruct b end; repeat split; try discriminate; tauto.
  - rewrite ?CC. destruct (tx_fsm (st (S (S n + D)))); try (exfalso; intuition congruence); cbn [Z.eqb]; repeat match goal with |- context [if ?b then _ else _] => destruct b end; repeat split; try discriminate; tauto.
  - rewrite (CD eq_refl). destruct (tx_fsm (st (S (S n + D)))); try (exfalso; intuition congruence); cbn [Z.eqb]; repeat match goal with |- context [if ?b then _ else _] => destruct b end; try tauto.
  - rewrite ?CC. destruct (tx_fsm (st (S (S n + D)))); try (exfalso; intuition congruence); cbn [Z.eqb]; repeat match goal with |- context [if ?b then _ else _] => destruct b end; repeat split; try discriminate; tauto.
Qed.

Lemma trk_de : forall n, b2 + 19 <= n -> tx_de_o (st (n + D + 2)) = is_pix (Q n).
Proof.
  intros n N. unfold st. rewrite hdmi_mode_de by reflexivity. fold (st (n + D + 2)). unfold tx_de_hdmi.
  pose proof (trk_phase n N) as P. destruct (Q n); cbn [phase_ok is_pix] in *; destruct (tx_fsm (st (n + D + 2))); try reflexivity; intuition congruence.
Qed.
(** *** Data islands *)

Lemma trk_ctl_code_ctl : forall n c0 c1 c2, b2 + 16 <= n -> Q n = Ctl c0 c1 c2 -> ctl_code (st (S (n + D))) = (c1 + 4 * c2)%Z.
Proof.
  intros n c0 c1 c2 N E.
  assert (ST : forall k, k < 3 -> rx_word r k (n + D) = W k n) by (intros k K; apply trk_word; [lia|exact K]).
  pose proof (ST 1 ltac:(lia)) as W1. pose proof (ST 2 ltac:(lia)) as W2. pose proof (trk_valid n N) as V.
  unfold r, stream_of in W1, W2, V. cbn [rx_word rx_valid] in W1, W2, V.
  change (st (S (n + D))) with (tx_step (st (n + D)) (tin (n + D))). unfold ctl_code, tx_step. cbn [tx_ch1 tx_ch2]. rewrite V, W1, W2.
  pose proof (src_words Q W HQ n 1 ltac:(lia)) as S1. pose proof (src_words Q W HQ n 2 ltac:(lia)) as S2. rewrite E in S1, S2.
  cbn [sends nth] in S1, S2. destruct S1 as [R1 ->], S2 as [R2 ->].
  assert (G : forall ch s c, (0 <= c < 4)%Z -> t4_c (t4_step ch s true (of_bits (dvi_control c))) = c).
  { intros ch s c R. assert (c = 0 \/ c = 1 \/ c = 2 \/ c = 3)%Z as [->|[->|[->| ->]]] by lia; reflexivity. }
  rewrite !G by assumption. reflexivity.
Qed.

Lemma trk_ctl_step : forall n, b2 + 19 <= n -> is_ctl (Q (n + 1)) = true ->
  let f := tx_fsm (st (n + 1 + D + 2)) in
  if preamble (Q (n + 1)) then f <> PREAM_VID /\ (tx_fsm (st (n + D + 2)) <> PREAM_VID -> is_ctl (Q n) = true -> f = PREAM_T4) else f <> PREAM_T4.
Proof.
  intros n N C f. unfold f. pose proof (trk_phase n N) as P.
  replace (n + 1 + D + 2) with (S (S (n + 1 + D))) by lia. rewrite trk_S.
  replace (n + D + 2) with (S (n + 1 + D)) in * by lia.
  pose proof (trk_ctl (n + 1) ltac:(lia)) as A. rewrite C in A.
  assert (B : all_vgb (st (S (n + 1 + D))) = false) by (apply trk_vgb_false; [lia| |]; destruct (Q (n + 1)); try discriminate; reflexivity).
  pose proof (trk_ctl_dgb (n + 1) ltac:(lia) C) as G. destruct (Q (n + 1)) as [c0 c1 c2| | | | |] eqn:E; try discriminate.
  pose proof (trk_ctl_code_ctl (n + 1) c0 c1 c2 ltac:(lia) E) as CC.
  pose proof (src_words Q W HQ (n + 1) 1 ltac:(lia)) as S1. pose proof (src_words Q W HQ (n + 1) 2 ltac:(lia)) as S2. rewrite E in S1, S2.
  cbn [sends nth] in S1, S2. destruct S1 as [R1 _], S2 as [R2 _].
  unfold tx_next. rewrite A, B, G, CC. cbn [preamble].
  destruct (Z.eqb_spec c1 1) as [->|N1], (Z.eqb_spec c2 1) as [->|N2]; cbn [andb].
  1: change (1 + 4 * 1 =? 5)%Z with true; change (1 + 4 * 1 =? 1)%Z with false; split;
     [destruct (tx_fsm (st (S (n + 1 + D)))); discriminate|intros NV CP; destruct (Q n); try discriminate; cbn [phase_ok] in P; destruct P as [P|[P|P]]; rewrite P in *; congruence].
  all: match goal with |- context [(?x =? 5)%Z] => replace (x =? 5)%Z with false by (symmetry; apply Z.eqb_neq; lia) end; destruct (tx_fsm (st (S (n + 1 + D)))); try discriminate;
    repeat match goal with |- context [if ?b then _ else _] => destruct b end; discriminate.
Qed.

Definition island_state (live : bool) (s : slot) : t4_fsm :=
  if live then match s with Lead _ => GOING_T4 | Packet _ _ _ => TERC4 | _ => LEAVE_T4 end else INIT.

Lemma trk_island_step : forall n, b2 + 19 <= n -> in_island (Q (n + 1)) = true ->
  let f := tx_fsm (st (n + D + 2)) in let f' := tx_fsm (st (n + 1 + D + 2)) in
  (is_ctl (Q n) = true -> f' = island_state (match f with PREAM_T4 => true | _ => false end) (Q (n + 1))) /\
  (is_ctl (Q n) = false -> in_island (Q n) = true /\ forall live, f = island_state live (Q n) -> f' = island_state live (Q (n + 1))).
Proof.
  intros n N I f f'. unfold f, f'. pose proof (trk_phase n N) as P.
  replace (n + 1 + D + 2) with (S (S (n + 1 + D))) by lia. rewrite trk_S. replace (n + D + 2) with (S (n + 1 + D)) in * by lia.
  pose proof (trk_ctl (n + 1) ltac:(lia)) as A.
  assert (B : all_vgb (st (S (n + 1 + D))) = false) by (apply trk_vgb_false; [lia| |]; destruct (Q (n + 1)); try discriminate; reflexivity).
  assert (CC : ctl_code (st (S (n + 1 + D))) = 0%Z).
  { unfold ctl_code. destruct (trk_ctl_code (n + 1) ltac:(lia) I) as [-> ->]. reflexivity. }
  assert (G : c2c1_dgb (st (S (n + 1 + D))) = negb (is_packet (Q (n + 1)))).
  { destruct (Q (n + 1)) eqn:E; try discriminate; cbn [is_packet negb].
    - apply (trk_dgb (n + 1) ltac:(lia)). pose proof (src_words Q W HQ (n + 1) 1 ltac:(lia)) as S1. pose proof (src_words Q W HQ (n + 1) 2 ltac:(lia)) as S2.
      rewrite E in S1, S2. split; [exact S1|exact S2].
    - eapply trk_packet; [lia|exact E].
    - apply (trk_dgb (n + 1) ltac:(lia)). pose proof (src_words Q W HQ (n + 1) 1 ltac:(lia)) as S1. pose proof (src_words Q W HQ (n + 1) 2 ltac:(lia)) as S2.
      rewrite E in S1, S2. split; [exact S1|exact S2]. }
  pose proof (src_order Q W HQ n) as F.
  split.
  - intros C. destruct (Q n); try discriminate. destruct (Q (n + 1)); try discriminate; try contradiction. cbn [phase_ok is_ctl is_packet negb] in *.
    unfold tx_next. rewrite A, B, CC, G. destruct P as [->|[->| ->]]; reflexivity.
  - intros C. split; [destruct (Q n); try discriminate; destruct (Q (n + 1)); try discriminate; try contradiction; reflexivity|].
    intros live FS. unfold tx_next. rewrite A, B, CC, G, FS.
    destruct (Q n); try discriminate; destruct (Q (n + 1)); try discriminate; try contradiction; destruct live; reflexivity.
Qed.

Lemma last_ctl_ctl : forall n, is_ctl (Q n) = true -> last_ctl Q n = n.
Proof. intros [|n] E; [reflexivity|]. cbn [last_ctl]. rewrite E. reflexivity. Qed.

Lemma trk_island : forall n, b2 + 23 <= n -> in_island (Q n) = true ->
  b2 + 23 <= last_ctl Q n /\
  (preamble (Q (last_ctl Q n)) = true -> preamble (Q (last_ctl Q n - 1)) = true -> tx_fsm (st (n + D + 2)) = island_state true (Q n)) /\
  (preamble (Q (last_ctl Q n)) = false -> tx_fsm (st (n + D + 2)) = INIT).
Proof.
  intros n N. induction N as [|n N IH].
  - intros I. assert (C : is_ctl (Q (b2 + 23)) = true) by (apply Blank2; lia). destruct (Q (b2 + 23)); discriminate.
  - intros I. assert (NC : is_ctl (Q (S n)) = false) by (destruct (Q (S n)); try discriminate; reflexivity).
    cbn [last_ctl]. rewrite NC. destruct (trk_island_step n ltac:(lia)) as [XX Y]; [rewrite Nat.add_1_r; exact I|].
    rewrite !Nat.add_1_r in XX, Y. destruct (is_ctl (Q n)) eqn:C.
    + rewrite (last_ctl_ctl n C). split; [lia|]. rewrite (XX eq_refl).
      pose proof (trk_ctl_step (n - 1) ltac:(lia)) as Z. replace (n - 1 + 1) with n in Z by lia. specialize (Z C). cbv zeta in Z. split.
      * intros P1 P2. rewrite P1 in Z. destruct Z as [_ Z].
        assert (C1 : is_ctl (Q (n - 1)) = true) by (destruct (Q (n - 1)); try discriminate; reflexivity).
        pose proof (trk_ctl_step (n - 1 - 1) ltac:(lia)) as Z1. replace (n - 1 - 1 + 1) with (n - 1) in Z1 by lia. specialize (Z1 C1). cbv zeta in Z1.
        rewrite P2 in Z1. rewrite (Z (proj1 Z1) C1). reflexivity.
      * intros P1. rewrite P1 in Z. destruct (tx_fsm (st (n + D + 2))); try reflexivity. congruence.
    + destruct (Y eq_refl) as [I1 Y1]. destruct (IH I1) as (I2 & I3 & I4). split; [exact I2|]. split.
      * intros P1 P2. apply Y1, I3; assumption.
      * intros P1. apply (Y1 false). exact (I4 P1).
Qed.

Definition t4_of (s : tx_st) (k : nat) : t4 := match k with 0 => tx_ch0 s | 1 => tx_ch1 s | _ => tx_ch2 s end.
Lemma trk_nibble : forall n k, b2 + 16 <= n -> k < 3 -> t4_d (t4_of (st (S (n + D))) k) = t4_nibble (W k n) (t4_d (t4_of (st (n + D)) k)).
Proof.
  intros n k N K. change (st (S (n + D))) with (tx_step (st (n + D)) (tin (n + D))). rewrite <- (trk_word n k N K).
  destruct k as [|[|[|k]]]; try lia; unfold tx_step, t4_of; cbn [tx_ch0 tx_ch1 tx_ch2]; apply t4_d_step.
Qed.
End Track.
End Src.
