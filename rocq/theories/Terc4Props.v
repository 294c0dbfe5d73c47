(** Final theorems about the HDMI period tracker: C14, C15, C16, C17, C63. *)
From Coq Require Import ZArith List Bool Lia.
From Verif Require Import Hdl TmdsModel TmdsSpec ChanSyncModel DelayModel DelayProps Terc4Model Terc4Spec Terc4Proofs.
Import ListNotations.
Open Scope Z_scope.

(** ** C14 *)

(** With the dvimode bit set (two clocks ago: it goes through two flops), the
    DE output is channel 0's DE one clock ago. *)
Theorem C14_dvi_mode_de :
  forall (s0 : tx_st) (i : nat -> tx_in) (n : nat),
  txi_dvi (i n) = true ->
  tx_de_o (tx_run s0 i (n + 2)) = ch_de (txi_0 (i (n + 1)%nat)).
Proof.
  intros s0 i n H. replace (n + 2)%nat with (S (S n)) by lia. replace (n + 1)%nat with (S n) by lia.
  unfold tx_de_o, tx_run. cbn [at_ tx_step tx_dvi1 tx_dvi0 tx_de_r]. rewrite H. reflexivity.
Qed.
Print Assumptions C14_dvi_mode_de.

Definition ex_word (de dvi : bool) : tx_in :=
  let c := {| ch_raw := 0; ch_d := 0; ch_c := 0; ch_de := de |} in
  {| txi_valid := true; txi_0 := c; txi_1 := c; txi_2 := c; txi_dvi := dvi |}.
Example ex_dvi :
  map (fun n => tx_de_o (tx_run tx_init (fun t => ex_word (Nat.eqb t 4) true) n)) (seq 0 8)
  = [false; false; false; false; false; true; false; false].
Proof. reflexivity. Qed.

(** ** C15 *)

(** The mode register takes effect after two clocks. *)
Lemma hdmi_mode_de : forall s0 i n, txi_dvi (i n) = false ->
  tx_de_o (tx_run s0 i (n + 2)) = tx_de_hdmi (tx_run s0 i (n + 2)).
Proof.
  intros s0 i n H. replace (n + 2)%nat with (S (S n)) by lia.
  unfold tx_de_o, tx_run. cbn [at_ tx_step tx_dvi1 tx_dvi0]. rewrite H. reflexivity.
Qed.

(** DE (HDMI mode) high in clock [n] implies a video guard band word in some
    clock [k], with no control word from clock [k+2] on, as far as words that
    have gone through the two pipeline clocks are concerned.  The word of
    clock [k+1], right after the guard band, is taken as a pixel whatever it is. *)
Theorem C15_hdmi_de :
  forall (i : nat -> tx_in) (m : nat), txi_dvi (i m) = false ->
  let n := (m + 2)%nat in
  let s := tx_run tx_init i n in
  (tx_de_o s = true ->
     exists k, (k + 3 <= n)%nat /\ is_video_guard (stream_of i) k /\ ~ is_video_guard (stream_of i) (S k) /\
       forall j, (k + 2 <= j)%nat -> (j + 2 <= n)%nat -> ~ is_control (stream_of i) j) /\
  (tx_enc_video s = tx_de_o s) /\
  (tx_enc_video s = true -> tx_enc_data s = false /\ tx_enc_terc4 s = false) /\
  (tx_enc_data s = true -> tx_enc_terc4 s = true).
Proof.
  intros i m Hm n s. unfold s, n. rewrite hdmi_mode_de by exact Hm. fold n. fold s. split.
  - intros H. apply (going_video tx_init i eq_refl eq_refl n).
    unfold s, tx_de_hdmi in H. destruct (tx_fsm _); congruence.
  - unfold tx_enc_video, tx_enc_data, tx_enc_terc4, tx_de_hdmi. destruct (tx_fsm s); repeat split; congruence.
Qed.
Print Assumptions C15_hdmi_de.

(** ** C16 *)

(** A line of video as HDMI sends it: [P] preamble words, [G] guard band words,
    [L] pixel words, then a control word. *)
Definition hdmi_line (r : rxs) (p P G L : nat) : Prop :=
  (forall t, (p <= t < p + P)%nat -> is_preamble r 1 0 t) /\
  (forall t, (p + P <= t < p + P + G)%nat -> is_video_guard r t) /\
  (forall t, (p + P + G <= t < p + P + G + L)%nat -> ~ is_control r t) /\
  is_control r (p + P + G + L).

Lemma preamble_listening : forall s0 i p P, (3 <= P)%nat ->
  (forall t, (p <= t < p + P)%nat -> is_preamble (stream_of i) 1 0 t) ->
  tx_fsm (tx_run s0 i (S (p + P))) = PREAM_VID.
Proof.
  intros s0 i p P HP H.
  assert (ST : forall n, tx_fsm (tx_run s0 i (S n)) = tx_next (tx_run s0 i n)) by reflexivity.
  assert (F : forall t, (p <= t < p + P)%nat ->
     all_vgb (tx_run s0 i (S t)) = false /\ c2c1_dgb (tx_run s0 i (S t)) = false /\
     any_cvalid (tx_run s0 i (S t)) = true /\ ctl_code (tx_run s0 i (S t)) = 1).
  { intros t Ht. destruct (preamble_facts i t _ _ (H t Ht)) as [N1 N2].
    rewrite (not_true _ _ (all_vgb_step s0 i t) N1), (not_true _ _ (dgb_step s0 i t) N2).
    rewrite (preamble_ctl s0 i t 1 0) by (try lia; apply H, Ht).
    repeat split. apply any_cv_step. destruct (H t Ht) as (V & C & _). split; [exact V|].
    exists 0%nat. split; [lia|]. apply C; lia. }
  assert (G : forall t, (p + 2 <= t < p + P)%nat -> tx_fsm (tx_run s0 i (S (S t))) = PREAM_VID).
  { induction t as [|t IH]; intros Ht; [lia|].
    destruct (F (S t) ltac:(lia)) as (F1 & F2 & F3 & F4).
    destruct (Nat.eq_dec (S t) (p + 2)) as [E|E].
    - assert (X : tx_fsm (tx_run s0 i (S (S t))) = INIT \/ tx_fsm (tx_run s0 i (S (S t))) = PREAM_VID).
      { destruct (F p ltac:(lia)) as (A1 & A2 & A3 & A4).
        destruct (F (S p) ltac:(lia)) as (B1 & B2 & B3 & B4).
        replace t with (S p) by lia. rewrite ST. unfold tx_next.
        rewrite B1, B2, B3, B4. cbn [Z.eqb Pos.eqb].
        rewrite ST. unfold tx_next. rewrite A1, A2, A3, A4. cbn [Z.eqb Pos.eqb].
        destruct (tx_fsm (tx_run s0 i (S p))); auto. }
      rewrite ST. unfold tx_next. rewrite F1, F4. destruct X as [-> | ->]; reflexivity.
    - rewrite ST. unfold tx_next. rewrite IH by lia. rewrite F4. reflexivity. }
  replace (S (p + P)) with (S (S (p + P - 1))) by lia. apply G. lia.
Qed.

(** DE, in HDMI mode, is exactly the pixel period two clocks later, whatever
    the tracker was doing before the line — provided the first pixel is not
    coded by the three guard band words.
    Missing from the full statement: the first pixel may be any colour, and DE
    must be aligned with the data the receiver delays by one clock; both are
    false, see the two refutations below. *)
Theorem C16_de_covers_line_partial :
  forall (s0 : tx_st) (i : nat -> tx_in) (p P G L : nat),
  (forall t, txi_dvi (i t) = false) ->
  (3 <= P)%nat -> (1 <= G)%nat -> (1 <= L)%nat ->
  hdmi_line (stream_of i) p P G L ->
  ~ is_video_guard (stream_of i) (p + P + G) ->
  forall t, (p + P <= t <= p + P + G + L)%nat ->
  tx_de_o (tx_run s0 i (t + 2)) = (Nat.leb (p + P + G) t && Nat.ltb t (p + P + G + L)).
Proof.
  intros s0 i p P G L Hdvi HP HG HL (H1 & H2 & H3 & H4) Hn t Ht. rewrite hdmi_mode_de by apply Hdvi.
  pose proof (preamble_listening s0 i p P HP H1) as HS.
  assert (HLi : listening (tx_fsm (tx_run s0 i (S (p + P))))) by (rewrite HS; unfold listening; tauto).
  destruct (video_period s0 i (p + P) G L HLi HG HL H2 Hn H3) as [HV HI].
  pose proof (guards s0 i (p + P) G HLi HG H2) as HGd.
  replace (t + 2)%nat with (S (S t)) by lia. unfold tx_de_hdmi.
  destruct (Nat.leb_spec (p + P + G) t) as [A|A].
  - destruct (Nat.ltb_spec t (p + P + G + L)) as [B|B]; cbn [andb].
    + rewrite HV by lia. reflexivity.
    + replace t with (p + P + G + L)%nat by lia. rewrite HI by exact H4. reflexivity.
  - rewrite HGd by lia. reflexivity.
Qed.
Print Assumptions C16_de_covers_line_partial.

(** The receiver presents, with DE, the words delayed by one clock
    (TimingDelayChannel(1), input/__init__.py:108-120). *)
Definition presented (i : nat -> tx_in) (f : tx_in -> chan) (n : nat) : chan :=
  dly_out (dly_run 1 chan0 (fun t => f (i t)) n) (f (i n)).

(** In every line of every stream, DE is low when the first pixel is
    presented, and high when the control word after the last one is. *)
Theorem C16_de_alignment_refuted :
  forall (s0 : tx_st) (i : nat -> tx_in) (p P G L : nat),
  (forall t, txi_dvi (i t) = false) ->
  (3 <= P)%nat -> (1 <= G)%nat -> (1 <= L)%nat ->
  hdmi_line (stream_of i) p P G L ->
  ~ is_video_guard (stream_of i) (p + P + G) ->
  let first := (p + P + G)%nat in
  let after := (p + P + G + L)%nat in
  (presented i txi_0 (first + 1) = txi_0 (i first) /\ presented i txi_1 (first + 1) = txi_1 (i first) /\
   presented i txi_2 (first + 1) = txi_2 (i first) /\ tx_de_o (tx_run s0 i (first + 1)) = false) /\
  (presented i txi_0 (after + 1) = txi_0 (i after) /\ presented i txi_1 (after + 1) = txi_1 (i after) /\
   presented i txi_2 (after + 1) = txi_2 (i after) /\ tx_de_o (tx_run s0 i (after + 1)) = true).
Proof.
  intros s0 i p P G L Hdvi HP HG HL H Hn first after.
  pose proof (C16_de_covers_line_partial s0 i p P G L Hdvi HP HG HL H Hn) as D.
  assert (R : forall f n, presented i f (n + 1) = f (i n))
    by (intros f n; apply (proj1 (C61_pure_delay chan 1 chan0 (fun t => f (i t)) n))).
  rewrite !R. repeat split.
  - specialize (D (p + P + G - 1)%nat ltac:(lia)).
    replace (first + 1)%nat with (p + P + G - 1 + 2)%nat by (unfold first; lia). rewrite D.
    destruct (Nat.leb_spec (p + P + G) (p + P + G - 1)); [lia|reflexivity].
  - specialize (D (p + P + G + L - 1)%nat ltac:(lia)).
    replace (after + 1)%nat with (p + P + G + L - 1 + 2)%nat by (unfold after; lia). rewrite D.
    destruct (Nat.leb_spec (p + P + G) (p + P + G + L - 1)); [|lia].
    destruct (Nat.ltb_spec (p + P + G + L - 1) (p + P + G + L)); [reflexivity|lia].
Qed.
Print Assumptions C16_de_alignment_refuted.

(** A line whose pixels are [px 0], [px 1], ...: each pixel is three bytes
    (channel 0, 1, 2), encoded by the DVI algorithm at running disparity 0. *)
Definition mk (a b c : Z) : tx_in :=
  let w x := {| ch_raw := x; ch_d := 0; ch_c := 0; ch_de := false |} in
  {| txi_valid := true; txi_0 := w a; txi_1 := w b; txi_2 := w c; txi_dvi := false |}.
Definition px (d : Z * Z * Z) : tx_in :=
  let e x := of_bits (fst (dvi_pixel x 0)) in
  let '(a, b, c) := d in mk (e a) (e b) (e c).
Definition ctlw (a b c : Z) : tx_in :=
  mk (of_bits (dvi_control a)) (of_bits (dvi_control b)) (of_bits (dvi_control c)).
Definition guardw : tx_in := mk (video_guard 0) (video_guard 1) (video_guard 2).
Definition ex_line (l : list (Z * Z * Z)) (t : nat) : tx_in :=
  nth t (repeat (ctlw 0 1 0) 8 ++ [guardw; guardw] ++ map px l) (ctlw 0 0 0).

(** Blue 0xAB, green 0x55, red 0xAB is transmitted as the guard band words: a
    line starting with that colour loses its first pixel even for a DE latency
    of two clocks. *)
Theorem C16_guard_coloured_pixel_refuted :
  exists (i : nat -> tx_in) (p P G L : nat), (forall t, txi_dvi (i t) = false) /\ (3 <= P)%nat /\ (1 <= G)%nat /\ (1 <= L)%nat /\
  hdmi_line (stream_of i) p P G L /\
  (forall t, (p + P + G <= t < p + P + G + L)%nat ->
     exists d, i t = px d /\ 0 <= fst (fst d) < 256 /\ 0 <= snd (fst d) < 256 /\ 0 <= snd d < 256) /\
  tx_de_o (tx_run tx_init i (p + P + G + 2)) = false.
Proof.
  set (l := [(171, 85, 171); (1, 2, 3); (4, 5, 6)]).
  exists (ex_line l), 0%nat, 8%nat, 2%nat, 3%nat.
  split. { intros t. do 13 (destruct t as [|t]; [reflexivity|]). unfold ex_line. rewrite nth_overflow by (cbn; lia). reflexivity. }
  repeat match goal with |- _ /\ _ => split end; try lia.
  - unfold hdmi_line, is_preamble, is_video_guard, is_control. repeat split.
    1,3,4: do 8 (destruct t as [|t]; [reflexivity|]); lia.
    + intros ch Hch. apply ctlb_legal. do 8 (destruct t as [|t]; [destruct ch as [|[|[|]]]; reflexivity || lia|]); lia.
    + do 10 (destruct t as [|t]; [lia || reflexivity|]); lia.
    + intros ch Hch. do 10 (destruct t as [|t]; [lia || (destruct ch as [|[|[|]]]; reflexivity || lia)|]); lia.
    + intros t Ht [_ (ch & Hch & C)]. apply ctlb_legal in C.
      do 13 (destruct t as [|t]; [lia || (destruct ch as [|[|[|]]]; discriminate || lia)|]); lia.
    + exists 0%nat. split; [lia|]. apply ctlb_legal. reflexivity.
  - intros t Ht. do 10 (destruct t as [|t]; [lia|]).
    destruct t as [|t]; [exists (171, 85, 171); repeat split; cbn; lia|].
    destruct t as [|t]; [exists (1, 2, 3); repeat split; cbn; lia|].
    destruct t as [|t]; [exists (4, 5, 6); repeat split; cbn; lia|]. lia.
  - reflexivity.
Qed.
Print Assumptions C16_guard_coloured_pixel_refuted.

(** An ordinary line meets the hypotheses of the partial theorem; its DE. *)
Example ex_line_de :
  map (fun n => tx_de_o (tx_run tx_init (ex_line [(10, 20, 30); (1, 2, 3); (4, 5, 6)]) n)) (seq 8 10)
  = [false; false; false; false; true; true; true; false; false; false].
Proof. vm_compute. reflexivity. Qed.

(** ** C17 *)

Theorem C17_terc4_nibbles :
  (forall d e, 0 <= d < 16 -> 0 <= e < 16 -> terc4 d = terc4 e -> d = e) /\
  (forall (s0 : tx_st) (i : nat -> tx_in) (n : nat) (ch : nat), (ch < 3)%nat ->
     let nib m := t4_d (match ch with O => tx_ch0 | 1%nat => tx_ch1 | _ => tx_ch2 end (tx_run s0 i m)) in
     let w := rx_word (stream_of i) ch n in
     (forall d, 0 <= d < 16 -> w = terc4 d -> nib (S n) = d) /\
     ((forall d, 0 <= d < 16 -> w <> terc4 d) -> nib (S n) = nib n)) /\
  (forall (i : nat -> tx_in) (n : nat),
     t4_d (tx_ch0 (tx_run tx_init i n)) = last_nibble (rx_word (stream_of i) 0) n /\
     t4_d (tx_ch1 (tx_run tx_init i n)) = last_nibble (rx_word (stream_of i) 1) n /\
     t4_d (tx_ch2 (tx_run tx_init i n)) = last_nibble (rx_word (stream_of i) 2) n).
Proof.
  assert (INJ : forall d e, 0 <= d < 16 -> 0 <= e < 16 -> terc4 d = terc4 e -> d = e).
  { intros d e Hd He E.
    pose proof (forallb_zrange 0 16 (fun d => forallb (fun e => implb (terc4 d =? terc4 e) (d =? e)) (zrange 0 16))
      ltac:(vm_compute; reflexivity) d ltac:(lia)) as A. cbv beta in A.
    pose proof (forallb_zrange 0 16 _ A e ltac:(lia)) as B. cbv beta in B.
    rewrite E, Z.eqb_refl in B. apply Z.eqb_eq. exact B. }
  split; [exact INJ|]. split.
  - intros s0 i n ch Hch nib w.
    assert (N : nib (S n) = t4_nibble w (nib n)).
    { unfold nib, w. unfold tx_run. cbn [at_]. destruct ch as [|[|ch]]; unfold tx_step; cbn [tx_ch0 tx_ch1 tx_ch2];
        apply t4_d_step. }
    rewrite nibble_find in N. split.
    + intros d Hd E. destruct (find _ _) as [x|] eqn:F.
      * apply find_some in F. destruct F as [I X]. apply in_zrange in I. apply Z.eqb_eq in X.
        rewrite N. apply INJ; [lia|exact Hd|congruence].
      * pose proof (find_none _ _ F d (proj2 (in_zrange 0 16 d) ltac:(lia))) as X. cbv beta in X.
        rewrite E, Z.eqb_refl in X. discriminate.
    + intros H. destruct (find _ _) as [x|] eqn:F; [|exact N].
      apply find_some in F. destruct F as [I X]. apply in_zrange in I. apply Z.eqb_eq in X.
      exfalso. apply (H x); [lia|exact X].
  - intros i n. induction n as [|n (A & B & C)]; [repeat split|].
    change (tx_run tx_init i (S n)) with (tx_step (tx_run tx_init i n) (i n)).
    unfold tx_step. cbn [tx_ch0 tx_ch1 tx_ch2].
    rewrite !t4_d_step, !nibble_find, A, B, C. repeat split.
Qed.
Print Assumptions C17_terc4_nibbles.

Example ex_nibble :
  t4_d (tx_ch1 (tx_run tx_init (fun t => mk 0 (nth t [terc4 7; terc4 12; 1] 0) 0) 3)) = 12.
Proof. vm_compute. reflexivity. Qed.

(** ** C63: data islands are flagged exactly *)

Definition hdmi_island (r : rxs) (p P G L Q : nat) : Prop :=
  (forall t, (p <= t < p + P)%nat -> is_preamble r 1 1 t) /\
  (forall t, (p + P <= t < p + P + G)%nat -> is_data_guard r t) /\
  (forall t, (p + P + G <= t < p + P + G + L)%nat -> is_packet r t) /\
  (forall t, (p + P + G + L <= t < p + P + G + L + Q)%nat ->
     is_data_guard r t /\ ~ legal_control (rx_word r 0 t)) /\
  ~ is_data_guard r (p + P + G + L + Q).

(** Whatever the tracker was doing before the preamble, the island flag covers
    the guard bands and the packet words, the encryption flag exactly the
    packet words, and DE stays low; all with a latency of two clocks. *)
Theorem C63_data_island :
  forall (s0 : tx_st) (i : nat -> tx_in) (p P G L Q : nat),
  (forall t, txi_dvi (i t) = false) ->
  (4 <= P)%nat -> (1 <= G)%nat -> (1 <= L)%nat -> (1 <= Q)%nat ->
  hdmi_island (stream_of i) p P G L Q ->
  forall t, (p + P <= t <= p + P + G + L + Q)%nat ->
  let s := tx_run s0 i (t + 2) in
  tx_enc_terc4 s = Nat.ltb t (p + P + G + L + Q) /\
  tx_enc_data s = (Nat.leb (p + P + G) t && Nat.ltb t (p + P + G + L)) /\
  tx_de_o s = false.
Proof.
  intros s0 i p P G L Q Hdvi HP HG HL HQ (H1 & H2 & H3 & H4 & H5) t Ht.
  cbv zeta. rewrite hdmi_mode_de by apply Hdvi.
  assert (ST : forall n, tx_fsm (tx_run s0 i (S n)) = tx_next (tx_run s0 i n)) by reflexivity.
  assert (F : forall t, (p <= t < p + P)%nat ->
     all_vgb (tx_run s0 i (S t)) = false /\ c2c1_dgb (tx_run s0 i (S t)) = false /\
     any_cvalid (tx_run s0 i (S t)) = true /\ ctl_code (tx_run s0 i (S t)) = 5).
  { intros u Hu. destruct (preamble_facts i u _ _ (H1 u Hu)) as [N1 N2].
    rewrite (not_true _ _ (all_vgb_step s0 i u) N1), (not_true _ _ (dgb_step s0 i u) N2).
    rewrite (preamble_ctl s0 i u 1 1) by (try lia; apply H1, Hu).
    repeat split. apply any_cv_step. destruct (H1 u Hu) as (V & C & _). split; [exact V|].
    exists 0%nat. split; [lia|]. apply C; lia. }
  assert (B : tx_fsm (tx_run s0 i (S (p + 2))) = INIT \/ tx_fsm (tx_run s0 i (S (p + 2))) = PREAM_T4 \/
              tx_fsm (tx_run s0 i (S (p + 2))) = PREAM_VID).
  { destruct (F p ltac:(lia)) as (A1 & A2 & A3 & A4).
    destruct (F (S p) ltac:(lia)) as (B1 & B2 & B3 & B4).
    replace (S (p + 2)) with (S (S (S p))) by lia. rewrite ST. unfold tx_next.
    rewrite B1, B2, B3, B4. cbn [Z.eqb Pos.eqb].
    rewrite ST. unfold tx_next. rewrite A1, A2, A3, A4. cbn [Z.eqb Pos.eqb].
    destruct (tx_fsm (tx_run s0 i (S p))); auto. }
  destruct (island s0 i (p + 2) (P - 2) G L Q ltac:(lia) HG HL HQ B) as (R1 & R2 & R3 & R4).
  - intros u Hu. apply H1. lia.
  - intros u Hu. apply H2. lia.
  - intros u Hu. apply H3. lia.
  - intros u Hu. apply H4. lia.
  - replace (p + 2 + (P - 2))%nat with (p + P)%nat in * by lia.
    replace (t + 2)%nat with (S (S t)) by lia. cbv zeta. unfold tx_enc_terc4, tx_enc_data, tx_de_hdmi.
    destruct (Nat.ltb_spec t (p + P + G + L + Q)); destruct (Nat.leb_spec (p + P + G) t);
      destruct (Nat.ltb_spec t (p + P + G + L)); try lia; cbn [andb].
    + rewrite R2 by lia. auto.
    + rewrite R3 by lia. auto.
    + rewrite R1 by lia. auto.
    + replace t with (p + P + G + L + Q)%nat by lia. rewrite R4 by assumption. auto.
Qed.
Print Assumptions C63_data_island.

(** A small island: preamble, two guard words, three packet words, two guard words. *)
Definition ex_island (t : nat) : tx_in :=
  nth t (repeat (ctlw 0 1 1) 8 ++ repeat (mk (terc4 12) data_guard data_guard) 2 ++
         [mk (terc4 8) (terc4 8) (terc4 8); mk (terc4 1) (terc4 2) (terc4 3); mk (terc4 4) (terc4 5) (terc4 6)] ++
         repeat (mk (terc4 12) data_guard data_guard) 2) (ctlw 0 0 0).
Example ex_island_flags :
  map (fun n => (tx_enc_terc4 (tx_run tx_init ex_island n), tx_enc_data (tx_run tx_init ex_island n))) (seq 9 10)
  = [(false, false); (true, false); (true, false); (true, true); (true, true); (true, true);
     (true, false); (true, false); (false, false); (false, false)].
Proof. vm_compute. reflexivity. Qed.
Example ex_island_ok : is_data_guard (stream_of ex_island) 8 /\ is_packet (stream_of ex_island) 10 /\
  is_preamble (stream_of ex_island) 1 1 7.
Proof.
  repeat split.
  - intros [|[|[|ch]]] H; try lia; exists 8; split; try lia; reflexivity.
  - intros ch H. apply ctlb_legal. destruct ch as [|[|[|ch]]]; try lia; reflexivity.
Qed.
