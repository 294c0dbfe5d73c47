(** C70: the three-channel DVI link, from the transmitter's pixel input to the
    receiver's pixel output. *)
From Coq Require Import ZArith List Bool Lia Arith.
From Verif Require Import Hdl TmdsModel TmdsSpec TmdsProofs CharSyncModel CharSyncSpec CharSyncProofs
  CharSyncProps ChanSyncModel ChanSyncProofs ChanSyncProps AnalysisModel HdmiModel HdmiProofs.
Import ListNotations.
Open Scope nat_scope.

(** The transmitter sends the pixels [p]; channel [k] reaches the receiver
    [L k] bit times late, with any skew of up to 70 bit times between channels
    and an unknown word boundary; the receiver starts in any state.  After one
    line (at least 30 blank, 24 active and 24 blank clocks) the received pixels
    are the sent ones, with one constant latency for all channels, for ever;
    after the next line the sync signals are the sent ones too, made active
    high, whatever their polarity [ph], [pv]. *)
Theorem C70_dvi_link :
  forall p : nat -> px,
  (forall n, (0 <= px_r (p n) < 256 /\ 0 <= px_g (p n) < 256 /\ 0 <= px_b (p n) < 256)%Z) ->
  forall (L : nat -> nat) (Lmin : nat), (forall k, k < 3 -> Lmin <= L k <= Lmin + 70) ->
  forall raw : nat -> nat -> Z,
  (forall k, k < 3 ->
     (forall n, (0 <= raw n k < 1024)%Z) /\
     (forall t, L k <= t -> serial (fun n => raw n k) t = serial (tx_word p k) (t - L k))) ->
  forall s0,
  (forall k, k < 3 -> (0 <= cs_cnt (rx_cs_of s0 k) <= 7)%Z /\ well_formed 8 (cy_buf (rx_cy s0) k)) ->
  forall a b1 b2, a + 30 <= b1 -> b1 + 24 <= b2 ->
  (forall n, a <= n < b1 -> px_de (p n) = false) ->
  (forall n, b1 <= n < b2 -> px_de (p n) = true) ->
  (forall n, b2 <= n < b2 + 24 -> px_de (p n) = false) ->
  exists D, (forall k, k < 3 -> L k / 10 + 7 < D <= L k / 10 + 15) /\
  (forall n, b2 + 16 <= n ->
     let o := rx_sp (rx_run s0 raw (n + D)) in
     sp_valid o = true /\ sp_de o = px_de (p n) /\
     (px_de (p n) = true -> sp_r o = px_r (p n) /\ sp_g o = px_g (p n) /\ sp_b o = px_b (p n))) /\
  (forall (hs vs : nat -> bool) ph pv,
     (forall n, px_hs (p n) = xorb (hs n) ph /\ px_vs (p n) = xorb (vs n) pv) ->
     (forall n m, px_de (p n) = true -> n <= m + 1 -> m <= n + 1 -> hs m = false /\ vs m = false) ->
     forall f, b2 + 16 <= f -> px_de (p f) = true -> px_de (p (S f)) = false ->
     forall n, S f <= n ->
     let o := rx_sp (rx_run s0 raw (n + D)) in sp_hsync o = hs n /\ sp_vsync o = vs n).
Proof.
  intros p Hp L Lmin HL raw Hraw s0 Hs0 a b1 b2 H1 H2 B1 A B2.
  exact (link_end_to_end p Hp L Lmin HL raw Hraw s0 Hs0 a b1 b2 H1 H2 B1 A B2).
Qed.
Print Assumptions C70_dvi_link.

(** Hypotheses are met: 80-clock lines with 40 active pixels, active-low
    hsync in columns 10-19, delays of 13, 0 and 47 bits, power-on state. *)
Definition ex_px (n : nat) : px :=
  let x := n mod 80 in
  {| px_r := Z.of_nat n * 7 mod 256; px_g := Z.of_nat n * 5 mod 256; px_b := Z.of_nat n * 3 mod 256;
     px_hs := xorb ((10 <=? x) && (x <? 20)) true; px_vs := false; px_de := 40 <=? x |}.
Definition ex_L (k : nat) : nat := match k with 0 => 13 | 1 => 0 | _ => 47 end.

(** A receiver word stream whose first [L] bits are 0. *)
Definition delayed (W : nat -> Z) (L n : nat) : Z :=
  word_from (fun t => if t <? L then false else serial W (t - L)) (10 * n).

Lemma delayed_ok : forall W L,
  (forall n, (0 <= delayed W L n < 1024)%Z) /\
  (forall t, L <= t -> serial (delayed W L) t = serial W (t - L)).
Proof.
  intros W L. split; [intros n; apply word_from_bound|]. intros t Ht. unfold serial at 1, delayed.
  set (b := fun t => if t <? L then false else serial W (t - L)).
  pose proof (Nat.div_mod t 10 ltac:(lia)). pose proof (Nat.mod_upper_bound t 10 ltac:(lia)).
  unfold word_from. rewrite testbit_of_bits. rewrite nth_map_seq by lia.
  unfold b. destruct (Nat.ltb_spec (10 * (t / 10) + t mod 10) L); [lia|]. f_equal. lia.
Qed.

Example ex_hyp :
  (forall n, (0 <= px_r (ex_px n) < 256 /\ 0 <= px_g (ex_px n) < 256 /\ 0 <= px_b (ex_px n) < 256)%Z) /\
  (forall k, k < 3 -> 0 <= ex_L k <= 0 + 70) /\
  (forall k, k < 3 -> (0 <= cs_cnt (rx_cs_of rx_init k) <= 7)%Z /\ well_formed 8 (cy_buf (rx_cy rx_init) k)) /\
  (forall n, 0 <= n < 40 -> px_de (ex_px n) = false) /\
  (forall n, 40 <= n < 80 -> px_de (ex_px n) = true) /\
  (forall n, 80 <= n < 80 + 24 -> px_de (ex_px n) = false) /\
  (forall n m, px_de (ex_px n) = true -> n <= m + 1 -> m <= n + 1 ->
     (10 <=? m mod 80) && (m mod 80 <? 20) = false).
Proof.
  split. { intros n. cbn [ex_px px_r px_g px_b]. repeat split; apply Z.mod_pos_bound; lia. }
  split. { intros [|[|[|k]]] Hk; cbn; lia. }
  split. { intros [|[|[|k]]] Hk; try lia; (split; [cbn; lia|]); unfold well_formed; cbn; lia. }
  assert (M : forall n, n = 80 * (n / 80) + n mod 80 /\ n mod 80 < 80).
  { intros n. split; [apply Nat.div_mod; lia|apply Nat.mod_upper_bound; lia]. }
  split. { intros n Hn. cbn [ex_px px_de]. destruct (M n). apply Nat.leb_gt. lia. }
  split. { intros n Hn. cbn [ex_px px_de]. destruct (M n). apply Nat.leb_le. lia. }
  split. { intros n Hn. cbn [ex_px px_de]. destruct (M n). apply Nat.leb_gt. lia. }
  intros n m E A B. cbn [ex_px px_de] in E. apply Nat.leb_le in E. destruct (M n), (M m).
  apply andb_false_iff. rewrite Nat.leb_gt, Nat.ltb_ge. lia.
Qed.

(** The words are tabulated first, to keep the computation small. *)
Definition ex_words (k : nat) : list Z := map (tx_word ex_px k) (seq 0 175).
Definition ex_raw : nat -> nat -> Z :=
  let w0 := ex_words 0 in let w1 := ex_words 1 in let w2 := ex_words 2 in
  fun n k => delayed (fun j => nth j (match k with 0 => w0 | 1 => w1 | _ => w2 end) 852%Z) (ex_L k) n.
Example ex_received :
  let o := rx_sp (rx_run rx_init ex_raw (130 + 12)) in
  (sp_valid o, sp_de o, sp_r o, sp_g o, sp_b o) = (true, true, 130 * 7 mod 256, 130 * 5 mod 256, 130 * 3 mod 256)%Z /\
  sp_hsync (rx_sp (rx_run rx_init ex_raw (172 + 12))) = true.
Proof. vm_compute. split; reflexivity. Qed.

(** Data is reported valid only if all three channels were word-aligned three
    clocks earlier. *)
Theorem C70_valid_means_aligned :
  forall s0 raw n, sp_valid (rx_sp (rx_run s0 raw (n + 3))) = true ->
  forall k, k < 3 -> cs_synced (rx_cs_of (rx_run s0 raw n) k) = true.
Proof.
  intros s0 raw n H k Hk.
  assert (ST : forall m, rx_run s0 raw (S m) = rx_step (rx_run s0 raw m) (raw m)) by reflexivity.
  replace (n + 3) with (S (S (S n))) in H by lia.
  rewrite (ST (S (S n))) in H. unfold rx_step in H; cbn [rx_sp] in H. unfold sp_step, rx_sp_in in H; cbn [sp_valid spi_valid spi_d] in H.
  rewrite (ST (S n)) in H. unfold rx_step in H; cbn [rx_cy] in H. unfold cy_step at 1 in H; cbn [cy_synced] in H.
  destruct (cyi_valid (rx_cy_in (rx_run s0 raw (S n)))) eqn:V; [|discriminate].
  unfold rx_cy_in in V; cbn [cyi_valid] in V. apply andb_prop in V as [V V2]. apply andb_prop in V as [V0 V1].
  assert (G : forall j, j < 3 -> d_valid (rx_dec_of (rx_run s0 raw (S n)) j) = cs_synced (rx_cs_of (rx_run s0 raw n) j)).
  { intros j Hj. rewrite ST. unfold rx_dec_of at 1, rx_step; cbn [rx_dec]. rewrite nth_map_seq by lia. reflexivity. }
  destruct k as [|[|[|k]]]; [rewrite <- G by lia; assumption..|lia].
Qed.
Print Assumptions C70_valid_means_aligned.
