(** C132: data islands at a receiver built with hdmi=True. *)
From Coq Require Import ZArith List Bool Lia Arith.
From Verif Require Import Hdl Trace TmdsModel TmdsSpec TmdsProofs CharSyncModel CharSyncSpec CharSyncProofs CharSyncProps
  ChanSyncModel ChanSyncProofs ChanSyncProps AnalysisModel AnalysisProps DelayModel Terc4Model Terc4Spec Terc4Proofs
  HdmiModel HdmiProofs HdmiRxModel HdmiRxProps Terc4Props HdmiProps HdmiSrcSpec HdmiSrcProofs HdmiSrcProps.
Import ListNotations.
Open Scope nat_scope.

(** The period tracker of the receiver, and the nibble it shows for channel [k]. *)
Definition tracker (s0 : rh_st) raw n : tx_st := rh_t4 (rh_run s0 raw hdmi_mode n).
Definition shown_nibble (s : tx_st) (k : nat) : Z := t4_d (match k with 0 => tx_ch0 s | 1 => tx_ch1 s | _ => tx_ch2 s end).

(** The island with clock [n] in it comes after two characters of the preamble; after a last character that is none. *)
Definition announced (Q : nat -> slot) (n : nat) : bool := preamble (Q (last_ctl Q n)) && preamble (Q (last_ctl Q n - 1)).
Definition unannounced (Q : nat -> slot) (n : nat) : bool := negb (preamble (Q (last_ctl Q n))).

(** What the tracker shows [E] clocks after the source sent it. *)
Record tracks (Q : nat -> slot) (o : nat -> tx_st) (E n0 : nat) : Prop := {
  trk_video : forall n, n0 <= n -> tx_enc_video (o (n + E)) = is_pix (Q n);
  trk_outside : forall n, n0 <= n -> in_island (Q n) = false -> tx_enc_terc4 (o (n + E)) = false /\ tx_enc_data (o (n + E)) = false;
  trk_inside : forall n, n0 <= n -> in_island (Q n) = true -> announced Q n = true ->
    tx_enc_terc4 (o (n + E)) = true /\ tx_enc_data (o (n + E)) = is_packet (Q n);
  trk_silent : forall n, n0 <= n -> in_island (Q n) = true -> unannounced Q n = true ->
    tx_enc_terc4 (o (n + E)) = false /\ tx_enc_data (o (n + E)) = false;
  (** the nibbles are one clock ahead of the flags *)
  trk_nibbles : forall n, n0 <= n -> is_packet (Q (n + 1)) = true -> forall k, k < 3 -> shown_nibble (o (n + E)) k = nibble (Q (n + 1)) k;
  (** channels 1 and 2 keep the last one in the guard band after it *)
  trk_held : forall n d, n0 <= n -> Q (n + 1) = Trail d ->
    shown_nibble (o (n + E)) 0 = d /\ forall k, 1 <= k < 3 -> shown_nibble (o (n + E)) k = shown_nibble (o (n + E - 1)) k
}.

Lemma guard_no_nibble : forall x, t4_nibble data_guard x = x.
Proof. intros x. rewrite nibble_find. reflexivity. Qed.

Theorem C132_islands : forall Q W, hdmi_source Q W -> forall L raw, wired W L raw ->
  forall s0, rx_ok (rh_rx s0) -> one_deep s0 -> forall a b1 b2, lock_sequence Q a b1 b2 ->
  exists E, (forall k, k < 3 -> L k / 10 + 5 < E <= L k / 10 + 13) /\ tracks Q (tracker s0 raw) E (b2 + 23).
Proof.
  intros Q W HQ L raw [[Lmin HL] Hraw] s0 Hs0 H0 a b1 b2 (Ha & H1 & H2 & B1 & A & B2).
  destruct (src_shown Q W HQ L Lmin HL raw Hraw s0 Hs0 a b1 b2 Ha H1 H2 B1 A B2) as (D & HD & Sh). cbv zeta in Sh.
  exists (D + 2). split; [intros k K; specialize (HD k K); lia|].
  set (o := fun k n => cy_out (rx_cy (rx_run (rh_rx s0) raw n)) k).
  set (tin := fun n => {| txi_valid := cy_synced (rx_cy (rx_run (rh_rx s0) raw n)); txi_0 := o 0 n; txi_1 := o 1 n; txi_2 := o 2 n; txi_dvi := false |}).
  assert (T : forall n, tracker s0 raw n = tx_run (rh_t4 s0) tin n) by (intros n; exact (rh_tracker s0 raw hdmi_mode n)).
  assert (PH : forall n, b2 + 23 <= n -> phase_ok (Q n) (tx_fsm (tracker s0 raw (n + (D + 2))))).
  { intros n N. rewrite T, Nat.add_assoc. exact (trk_phase Q W HQ L Lmin raw Hraw s0 Hs0 a b1 b2 Ha H1 H2 B1 B2 D Sh n ltac:(lia)). }
  assert (IS : forall n, b2 + 23 <= n -> in_island (Q n) = true ->
    (preamble (Q (last_ctl Q n)) = true -> preamble (Q (last_ctl Q n - 1)) = true -> tx_fsm (tracker s0 raw (n + (D + 2))) = island_state true (Q n)) /\
    (preamble (Q (last_ctl Q n)) = false -> tx_fsm (tracker s0 raw (n + (D + 2))) = INIT)).
  { intros n N I. rewrite T, Nat.add_assoc. exact (proj2 (trk_island Q W HQ L Lmin raw Hraw s0 Hs0 a b1 b2 Ha H1 H2 B1 B2 D Sh n N I)). }
  assert (NB : forall n k, b2 + 23 <= n -> k < 3 -> shown_nibble (tracker s0 raw (n + (D + 2))) k =
    t4_nibble (W k (n + 1)) (shown_nibble (tracker s0 raw (n + (D + 2) - 1)) k)).
  { intros n k N K. rewrite !T. replace (n + (D + 2)) with (S (n + 1 + D)) by lia. replace (S (n + 1 + D) - 1) with (n + 1 + D) by lia.
    exact (trk_nibble Q W HQ L Lmin raw Hraw s0 Hs0 a b1 b2 Ha H1 H2 B1 D Sh (n + 1) k ltac:(lia) K). }
  split.
  - intros n N. specialize (PH n N). unfold tx_enc_video.
    destruct (Q n); cbn [phase_ok is_pix] in *; destruct (tx_fsm (tracker s0 raw (n + (D + 2)))); try reflexivity; intuition congruence.
  - intros n N I. specialize (PH n N). unfold tx_enc_terc4, tx_enc_data.
    destruct (Q n); try discriminate; cbn [phase_ok] in PH; destruct (tx_fsm (tracker s0 raw (n + (D + 2)))); try (split; reflexivity); intuition congruence.
  - intros n N I AN. unfold announced in AN. apply andb_true_iff in AN as [A1 A2]. unfold tx_enc_terc4, tx_enc_data. rewrite (proj1 (IS n N I) A1 A2).
    destruct (Q n); try discriminate; split; reflexivity.
  - intros n N I AN. unfold unannounced in AN. apply negb_true_iff in AN. unfold tx_enc_terc4, tx_enc_data. rewrite (proj2 (IS n N I) AN). split; reflexivity.
  - intros n N P k K. rewrite NB by assumption. pose proof (src_words Q W HQ (n + 1) k K) as S1. destruct (Q (n + 1)); try discriminate.
    cbn [sends nibble] in *. destruct S1 as [R ->]. apply terc4_nibble, R.
  - intros n d N E. rewrite NB by (try assumption; lia). split.
    + pose proof (src_words Q W HQ (n + 1) 0 ltac:(lia)) as S1. rewrite E in S1. cbn [sends] in S1. destruct S1 as [R ->]. apply terc4_nibble, R.
    + intros k K. rewrite NB by (try assumption; lia). pose proof (src_words Q W HQ (n + 1) k ltac:(lia)) as S1. rewrite E in S1.
      destruct k as [|k]; [lia|]. cbn [sends] in S1. rewrite S1. apply guard_no_nibble.
Qed.
Print Assumptions C132_islands.

(** An announced island of [h] packet clocks from clock [p] on: the nibbles of channels 1 and 2 that a reader gets by looking while the
    data flag is high lack the first one and end with the last one twice. *)
Definition flagged (o : nat -> tx_st) (k n : nat) : option Z := if tx_enc_data (o n) then Some (shown_nibble (o n) k) else None.
Theorem C132_read_by_flag : forall Q W, hdmi_source Q W -> forall o E n0, 1 <= E -> tracks Q o E n0 ->
  forall p h, n0 < p -> 1 <= h -> (forall j, j < h -> is_packet (Q (p + j)) = true) -> is_packet (Q (p + h)) = false -> announced Q p = true ->
  forall k, 1 <= k < 3 ->
  collect (flagged o k) (p + E) h = tl (map (fun j => nibble (Q j) k) (seq p h)) ++ [nibble (Q (p + (h - 1))) k].
Proof.
  intros Q W HQ o E n0 HE TR p h P H PK PE AN k K.
  assert (LC : forall j, j < h -> last_ctl Q (p + j) = last_ctl Q p).
  { induction j as [|j IH]; intros J; [rewrite Nat.add_0_r; reflexivity|]. rewrite Nat.add_succ_r. cbn [last_ctl].
    specialize (PK (S j) J). rewrite Nat.add_succ_r in PK. destruct (Q (S (p + j))); try discriminate. cbn [is_ctl]. apply IH. lia. }
  assert (TE : exists d, Q (p + h) = Trail d).
  { pose proof (PK (h - 1) ltac:(lia)) as X. pose proof (src_order Q W HQ (p + (h - 1))) as F. replace (p + (h - 1) + 1) with (p + h) in F by lia.
    destruct (Q (p + (h - 1))); try discriminate. destruct (Q (p + h)); try discriminate; try contradiction. eauto. }
  destruct TE as [d TE].
  assert (FL : forall j, j < h -> tx_enc_data (o (p + j + E)) = true).
  { intros j J. pose proof (PK j J) as X. assert (I : in_island (Q (p + j)) = true) by (destruct (Q (p + j)); try discriminate; reflexivity).
    destruct (trk_inside _ _ _ _ TR (p + j) ltac:(lia) I) as [_ ->]; [|exact X]. unfold announced in *. rewrite LC by exact J. exact AN. }
  assert (SH : forall j, S j < h -> shown_nibble (o (p + j + E)) k = nibble (Q (p + S j)) k).
  { intros j J. pose proof (trk_nibbles _ _ _ _ TR (p + j) ltac:(lia)) as X. replace (p + j + 1) with (p + S j) in X by lia. apply X; [apply PK, J|lia]. }
  assert (FR : shown_nibble (o (p + E - 1)) k = nibble (Q p) k).
  { pose proof (trk_nibbles _ _ _ _ TR (p - 1) ltac:(lia)) as X. replace (p - 1 + 1) with p in X by lia. replace (p - 1 + E) with (p + E - 1) in X by lia.
    apply X; [|lia]. specialize (PK 0 ltac:(lia)). rewrite Nat.add_0_r in PK. exact PK. }
  assert (LS : shown_nibble (o (p + (h - 1) + E)) k = nibble (Q (p + (h - 1))) k).
  { destruct (trk_held _ _ _ _ TR (p + (h - 1)) d ltac:(lia)) as [_ X]; [replace (p + (h - 1) + 1) with (p + h) by lia; exact TE|].
    rewrite X by exact K. destruct (Nat.eq_dec h 1) as [->|N1].
    - replace (p + (1 - 1)) with p by lia. exact FR.
    - replace (p + (h - 1) + E - 1) with (p + (h - 2) + E) by lia. rewrite SH by lia. replace (S (h - 2)) with (h - 1) by lia. reflexivity. }
  assert (G : forall m, m < h -> collect (flagged o k) (p + E) m = map (fun j => nibble (Q j) k) (seq (S p) m)).
  { induction m as [|m IH]; intros M; [reflexivity|]. cbn [collect]. rewrite IH by lia. rewrite seq_S, map_app. f_equal. unfold flagged.
    replace (p + E + m) with (p + m + E) by lia. rewrite FL by lia. rewrite SH by lia. cbn [map]. replace (p + S m) with (S p + m) by lia. reflexivity. }
  destruct h as [|h]; [lia|]. cbn [collect]. rewrite G by lia. cbn [seq map tl]. f_equal. unfold flagged.
  replace (p + E + h) with (p + (S h - 1) + E) by lia. rewrite FL by lia. rewrite LS. reflexivity.
Qed.
Print Assumptions C132_read_by_flag.

(** The source of HdmiSrcProps.v: its island from clock 240 on, after two preamble characters, and its first nibble. *)
Example ex_island : announced ex_src 242 = true /\ is_packet (ex_src 241) = false /\ is_packet (ex_src 242) = true /\
  is_packet (ex_src 273) = true /\ is_packet (ex_src 274) = false /\ map (fun n => nibble (ex_src n) 1) [242; 243; 244; 273] = [10; 15; 4; 5]%Z.
Proof. vm_compute. repeat split. Qed.
Definition ex_itab (k : nat) : list Z := map (ex_W k) (seq 0 300).
Definition ex_iraw : nat -> nat -> Z :=
  let w0 := ex_itab 0 in let w1 := ex_itab 1 in let w2 := ex_itab 2 in
  fun n k => delayed (fun j => nth j (match k with 0 => w0 | 1 => w1 | _ => w2 end) 852%Z) (ex_L k) n.
Example ex_island_read :
  let s := rh_run rh_init ex_iraw hdmi_mode 250 in let run n := rh_t4 (at_ rh_step s (fun t => (ex_iraw (250 + t), false)) n) in
  map (fun n => (tx_enc_terc4 (run n), tx_enc_data (run n), shown_nibble (run n) 1)) [1; 2; 3; 33; 34; 35; 36]
  = [(true, false, 10); (true, true, 15); (true, true, 4); (true, true, 5); (true, false, 5); (true, false, 5); (false, false, 5)]%Z.
Proof. vm_compute. reflexivity. Qed.
