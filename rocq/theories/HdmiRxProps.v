(** C87, C88: the receiver built with hdmi=True. *)
From Coq Require Import ZArith List Bool Lia Arith.
From Verif Require Import Hdl TmdsModel TmdsSpec CharSyncModel ChanSyncModel AnalysisModel DelayModel Terc4Model Terc4Spec Terc4Proofs Terc4Props
  HdmiModel HdmiRxModel GenlockProps.
Import ListNotations.
Open Scope nat_scope.

(** The delay lines have one register each. *)
Definition one_deep (s : rh_st) : Prop := length (rh_d0 s) = 1 /\ length (rh_d1 s) = 1 /\ length (rh_d2 s) = 1.

Section Rx.
Variable s0 : rh_st.
Variable raw : nat -> nat -> Z.
Variable dvi : nat -> bool.
Hypothesis H0 : one_deep s0.
Let H := rh_run s0 raw dvi.
Let D := rx_run (rh_rx s0) raw.

Lemma rh_S : forall n, H (S n) = rh_step (H n) (raw n, dvi n).
Proof. reflexivity. Qed.
Lemma rx_S : forall n, D (S n) = rx_step (D n) (raw n).
Proof. reflexivity. Qed.

(** Both variants have the same front end. *)
Lemma rh_front : forall n, rx_cs (rh_rx (H n)) = rx_cs (D n) /\ rx_dec (rh_rx (H n)) = rx_dec (D n) /\ rx_cy (rh_rx (H n)) = rx_cy (D n).
Proof.
  induction n as [|n (I1 & I2 & I3)]; [repeat split|].
  rewrite rh_S, rx_S. unfold rh_step, rx_step. cbn [fst rh_rx rx_cs rx_dec rx_cy].
  unfold rx_cs_of, rx_dec_of, rx_dec_in, rx_cy_in, rx_cs_of, rx_dec_of. rewrite I1, I2, I3. repeat split.
Qed.
Let o k n := cy_out (rx_cy (D n)) k.

Lemma rh_delay : forall n, rh_d0 (H (S n)) = [o 0 n] /\ rh_d1 (H (S n)) = [o 1 n] /\ rh_d2 (H (S n)) = [o 2 n].
Proof.
  assert (L : forall n, one_deep (H n)).
  { induction n as [|n (I1 & I2 & I3)]; [exact H0|]. rewrite rh_S. unfold one_deep, rh_step. cbn [rh_d0 rh_d1 rh_d2].
    destruct (rh_d0 (H n)) as [|? [|]]; try discriminate. destruct (rh_d1 (H n)) as [|? [|]]; try discriminate.
    destruct (rh_d2 (H n)) as [|? [|]]; try discriminate. repeat split. }
  intros n. destruct (L n) as (I1 & I2 & I3). destruct (rh_front n) as (_ & _ & F). rewrite rh_S. unfold rh_step. cbn [rh_d0 rh_d1 rh_d2]. rewrite F.
  destruct (rh_d0 (H n)) as [|? [|]]; try discriminate. destruct (rh_d1 (H n)) as [|? [|]]; try discriminate.
  destruct (rh_d2 (H n)) as [|? [|]]; try discriminate. repeat split.
Qed.

Let tin n : tx_in := {| txi_valid := cy_synced (rx_cy (D n)); txi_0 := o 0 n; txi_1 := o 1 n; txi_2 := o 2 n; txi_dvi := dvi n |}.
Lemma rh_tracker : forall n, rh_t4 (H n) = tx_run (rh_t4 s0) tin n.
Proof.
  induction n as [|n IH]; [reflexivity|]. rewrite rh_S. unfold rh_step. cbn [rh_t4 snd]. rewrite IH.
  unfold rh_t4_in. destruct (rh_front n) as (_ & _ & ->). reflexivity.
Qed.

(** What the last stage of either variant gets. *)
Lemma rh_sp_step : forall n, rx_sp (rh_rx (H (S (S n)))) =
  sp_step (rx_sp (rh_rx (H (S n)))) {| spi_valid := cy_synced (rx_cy (D (S n))); spi_de := tx_de_o (tx_run (rh_t4 s0) tin (S n));
    spi_c := (bit (ch_c (o 0 n)) 0, bit (ch_c (o 0 n)) 1); spi_d := (ch_d (o 0 n), ch_d (o 1 n), ch_d (o 2 n)) |}.
Proof.
  intros n. rewrite (rh_S (S n)). unfold rh_step at 1. cbn [rh_rx rx_sp]. unfold rh_sp_in.
  destruct (rh_delay n) as (-> & -> & ->). destruct (rh_front (S n)) as (_ & _ & ->). rewrite rh_tracker. reflexivity.
Qed.
Lemma rx_sp_step : forall n, rx_sp (D (S n)) =
  sp_step (rx_sp (D n)) {| spi_valid := cy_synced (rx_cy (D n)); spi_de := ch_de (o 0 n);
    spi_c := (bit (ch_c (o 0 n)) 0, bit (ch_c (o 0 n)) 1); spi_d := (ch_d (o 0 n), ch_d (o 1 n), ch_d (o 2 n)) |}.
Proof. reflexivity. Qed.

Lemma dvi_same : forall m, (forall n, m <= n -> dvi n = true) ->
  forall n, m + 2 <= n ->
  let h := rx_sp (rh_rx (H (S (S n)))) in let d := rx_sp (D (S n)) in
  sp_de h = sp_de d /\ sp_r h = sp_r d /\ sp_g h = sp_g d /\ sp_b h = sp_b d /\ sp_valid (rx_sp (rh_rx (H (S n)))) = sp_valid d.
Proof.
  intros m V n N h d. unfold h, d. rewrite rh_sp_step, rx_sp_step. unfold sp_step. cbn [spi_valid spi_de spi_c spi_d sp_de sp_r sp_g sp_b sp_valid].
  repeat split.
  - pose proof (C14_dvi_mode_de (rh_t4 s0) tin (n - 1)) as E. replace (n - 1 + 2) with (S n) in E by lia. replace (n - 1 + 1) with n in E by lia.
    rewrite E by (cbn; apply V; lia). reflexivity.
  - rewrite rh_S. unfold rh_step. cbn [rh_rx rx_sp]. unfold sp_step, rh_sp_in. cbn [spi_valid spi_d sp_valid].
    destruct (rh_front n) as (_ & _ & ->). reflexivity.
Qed.

(** C87 *)
Lemma dvi_sync_same : forall m, (forall n, m <= n -> dvi n = true) ->
  forall j, m + 3 <= j -> sp_de (rx_sp (D j)) = true -> sp_de (rx_sp (D (S j))) = false ->
  forall n, S j <= n -> sp_c (rx_sp (rh_rx (H (S n)))) = sp_c (rx_sp (D n)) /\ sp_pol (rx_sp (rh_rx (H (S n)))) = sp_pol (rx_sp (D n)).
Proof.
  intros m V j J D1 D2 n N. induction N as [|n N IH].
  - assert (P : sp_de (rx_sp (rh_rx (H (S j)))) = true /\ sp_de (rx_sp (rh_rx (H (S (S j))))) = false).
    { destruct j as [|j]; [lia|]. destruct (dvi_same m V j ltac:(lia)) as (E & _). cbv zeta in E. rewrite E, D1.
      destruct (dvi_same m V (S j) ltac:(lia)) as (E' & _). cbv zeta in E'. rewrite E', D2. split; reflexivity. }
    destruct P as [P1 P2]. rewrite rh_sp_step in P2 |- *. rewrite rx_sp_step in D2 |- *.
    unfold sp_step in *. cbn [spi_valid spi_de spi_c spi_d sp_de sp_c sp_pol] in *. rewrite P1, P2, D1, D2. split; reflexivity.
  - destruct IH as [I1 I2].
    assert (P : sp_de (rx_sp (rh_rx (H (S n)))) = sp_de (rx_sp (D n)) /\ sp_de (rx_sp (rh_rx (H (S (S n))))) = sp_de (rx_sp (D (S n)))).
    { destruct n as [|n]; [lia|]. destruct (dvi_same m V n ltac:(lia)) as (E & _). destruct (dvi_same m V (S n) ltac:(lia)) as (E' & _). split; [exact E|exact E']. }
    destruct P as [P1 P2]. rewrite rh_sp_step in P2 |- *. rewrite rx_sp_step in P2 |- *.
    unfold sp_step in *. cbn [spi_valid spi_de spi_c spi_d sp_de sp_c sp_pol] in *. rewrite P1, P2, I2. split; reflexivity.
Qed.
End Rx.

(** Outputs of the receiver to the frame capture and resolution detection. *)
Definition rh_out (s0 : rh_st) raw dvi n : sp_st := rx_sp (rh_rx (rh_run s0 raw dvi n)).
Definition rx_out (s0 : rx_st) raw n : sp_st := rx_sp (rx_run s0 raw n).

(** C87: with the DVI bit set the HDMI variant delivers what the DVI variant delivers, one clock later; the valid flag is not delayed. *)
Theorem C87_dvi_mode : forall s0, one_deep s0 -> forall raw dvi m, (forall n, m <= n -> dvi n = true) ->
  forall n, m + 3 <= n ->
  let h := rh_out s0 raw dvi (n + 1) in let d := rx_out (rh_rx s0) raw n in
  sp_de h = sp_de d /\ sp_r h = sp_r d /\ sp_g h = sp_g d /\ sp_b h = sp_b d /\
  sp_valid (rh_out s0 raw dvi n) = sp_valid d /\
  (forall j, m + 3 <= j < n -> sp_de (rx_out (rh_rx s0) raw j) = true -> sp_de (rx_out (rh_rx s0) raw (j + 1)) = false ->
   sp_hsync h = sp_hsync d /\ sp_vsync h = sp_vsync d).
Proof.
  intros s0 O raw dvi m V n N h d. unfold h, d, rh_out, rx_out. rewrite Nat.add_1_r. destruct n as [|n]; [lia|].
  destruct (dvi_same s0 raw dvi O m V n ltac:(lia)) as (A & B & C & E & F). cbv zeta in A, B, C, E, F.
  rewrite A, B, C, E, F. repeat (split; [reflexivity|]).
  intros j J J1 J2. rewrite Nat.add_1_r in J2.
  destruct (dvi_sync_same s0 raw dvi O m V j ltac:(lia) J1 J2 (S n) ltac:(lia)) as [S1 _].
  unfold sp_hsync, sp_vsync. rewrite S1. split; reflexivity.
Qed.

(** ** C88 *)

(** Every word in the receiver carries the byte its ten bits decode to (or is the zero word of the reset state). *)
Definition coherent (c : chan) : Prop := ch_raw c = 0%Z \/ ch_d c = dec_data (ch_raw c).

Lemma upd_in : forall (A : Type) p (x : A) l y, In y (upd p x l) -> y = x \/ In y l.
Proof.
  intros A p x l. revert p. induction l as [|a l IH]; intros p y Y; [destruct p; destruct Y|].
  destruct p as [|p]; cbn in *; [destruct Y; subst; auto|]. destruct Y as [Y|Y]; [auto|]. destruct (IH p y Y); auto.
Qed.

Lemma rx_coherent : forall raw n,
  (forall k, k < 3 -> coherent (dec_chan (rx_dec_of (rx_run rx_init raw n) k))) /\
  (forall k, k < 3 -> forall c, In c (sb_mem (cy_buf (rx_cy (rx_run rx_init raw n)) k)) -> coherent c).
Proof.
  intros raw n. induction n as [|n [I1 I2]].
  - split.
    + intros k K. left. destruct k as [|[|[|k]]]; [reflexivity..|lia].
    + intros k K c C. left. assert (E : sb_mem (cy_buf (rx_cy rx_init) k) = repeat chan0 8) by (destruct k as [|[|[|k]]]; [reflexivity..|lia]).
      change (rx_run rx_init raw 0) with rx_init in C. rewrite E in C. apply repeat_spec in C. subst c. reflexivity.
  - change (rx_run rx_init raw (S n)) with (rx_step (rx_run rx_init raw n) (raw n)). set (s := rx_run rx_init raw n) in *. split.
    + intros k K. right.
      assert (Q : rx_dec_of (rx_step s (raw n)) k = dec_step (rx_dec_of s k) (rx_dec_in s k)).
      { unfold rx_dec_of at 1, rx_step. cbn [rx_dec]. apply (nth_map_seq _ (fun k => dec_step (rx_dec_of s k) (rx_dec_in s k))). exact K. }
      rewrite Q. reflexivity.
    + intros k K c C. unfold rx_step in C. cbn [rx_cy] in C. unfold cy_buf at 1, cy_step in C. cbn [cy_bufs] in C.
      rewrite nth_map_seq in C by exact K. unfold sb_step in C. cbn [sb_mem] in C.
      apply upd_in in C. destruct C as [C|C]; [|exact (I2 k K c C)]. subst c. apply I1. exact K.
Qed.

Lemma out_coherent : forall raw n k, k < 3 -> coherent (cy_out (rx_cy (rx_run rx_init raw n)) k).
Proof.
  intros raw n k K. destruct (rx_coherent raw n) as [_ M]. unfold cy_out, sb_dout.
  set (b := cy_buf (rx_cy (rx_run rx_init raw n)) k).
  destruct (Nat.lt_ge_cases (sb_cons b) (length (sb_mem b))) as [L|L].
  - apply (M k K). apply nth_In. exact L.
  - rewrite nth_overflow by exact L. left. reflexivity.
Qed.

(** What holds: from reset, with the DVI bit at its reset value, DE can only come after a clock in which the colours
    (0xAB, 0x55, 0xAB), sent as the guard band words, are at the outputs, whatever was received. *)
Theorem C88_only_after_guard_partial : forall raw n,
  sp_de (rh_out rh_init raw (fun _ => false) n) = true ->
  exists k, k < n /\ let h := rh_out rh_init raw (fun _ => false) k in sp_r h = 0xAB%Z /\ sp_g h = 0x55%Z /\ sp_b h = 0xAB%Z.
Proof.
  intros raw n E. assert (O : one_deep rh_init) by (repeat split). unfold rh_out in *.
  destruct n as [|[|n]]; [discriminate E|discriminate E|].
  rewrite (rh_sp_step rh_init raw (fun _ => false) O n) in E. unfold sp_step in E. cbn [spi_de spi_d sp_de] in E.
  change (rh_rx rh_init) with rx_init in *. change (rh_t4 rh_init) with tx_init in *.
  set (tin := fun n : nat => {| txi_valid := cy_synced (rx_cy (rx_run rx_init raw n)); txi_0 := cy_out (rx_cy (rx_run rx_init raw n)) 0;
     txi_1 := cy_out (rx_cy (rx_run rx_init raw n)) 1; txi_2 := cy_out (rx_cy (rx_run rx_init raw n)) 2; txi_dvi := false |}) in *.
  destruct n as [|m]; [discriminate E|].
  pose proof (C15_hdmi_de tin m eq_refl) as [C _]. replace (m + 2) with (S (S m)) in C by lia.
  destruct (C E) as (k & K & [_ G] & _). exists (S (S k)). split; [lia|].
  rewrite (rh_sp_step rh_init raw (fun _ => false) O k). unfold sp_step. cbn [spi_de spi_d sp_r sp_g sp_b].
  change (rh_rx rh_init) with rx_init.
  assert (W : forall c, c < 3 -> ch_raw (cy_out (rx_cy (rx_run rx_init raw k)) c) = video_guard c).
  { intros c L. rewrite <- (G c L). unfold stream_of, rx_word. destruct c as [|[|[|c]]]; [reflexivity..|lia]. }
  assert (X : forall c, c < 3 -> ch_d (cy_out (rx_cy (rx_run rx_init raw k)) c) = dec_data (video_guard c)).
  { intros c L. destruct (out_coherent raw k c L) as [Z|Z]; rewrite (W c L) in Z; [|exact Z].
    exfalso. destruct c as [|[|[|c]]]; [discriminate Z..|lia]. }
  rewrite (X 0), (X 1), (X 2) by lia. repeat split.
Qed.

(** A DVI source: one line of eight pixels of colour (1, 2, 3) after 45 blanking clocks. *)
Definition dvi_ex (n : nat) : px := {| px_r := 1; px_g := 2; px_b := 3; px_hs := false; px_vs := false; px_de := (45 <=? n) && (n <? 53) |}.
Definition dvi_raw (n k : nat) : Z := tx_word dvi_ex k n.

Lemma at_const : forall (St In : Type) (step : St -> In -> St) s i, step s i = s -> forall n, at_ step s (fun _ => i) n = s.
Proof. intros St In step s i E n. induction n as [|n IH]; [reflexivity|]. cbn [at_]. rewrite IH. exact E. Qed.
Lemma dvi_ex_late : forall n, dvi_ex (61 + n) = dvi_ex 61.
Proof. reflexivity. Qed.

Lemma dvi_ex_end : forall k, k < 3 -> forall n, dvi_raw (60 + n) k = dvi_raw 60 k.
Proof.
  intros k K n. unfold dvi_raw, tx_word. apply f_equal. unfold enc_at.
  change (S (60 + n)) with (61 + n). rewrite at_plus.
  rewrite (at_ext _ _ enc_step _ (fun _ => phy_char k (dvi_ex 61))) by (intros t; apply f_equal; apply dvi_ex_late).
  apply at_const. destruct k as [|[|[|k]]]; [vm_compute; reflexivity..|lia].
Qed.

Lemma rh_step_ext : forall s r r' d, (forall k, k < 3 -> r k = r' k) -> rh_step s (r, d) = rh_step s (r', d).
Proof. intros s r r' d E. unfold rh_step, rx_step. cbn [fst snd seq map]. rewrite (E 0), (E 1), (E 2) by lia. reflexivity. Qed.

Definition dvi_T : nat := 75.
Definition dvi_S : rh_st := Eval vm_compute in rh_run rh_init dvi_raw (fun _ => false) 75.
Lemma dvi_S_ok : rh_run rh_init dvi_raw (fun _ => false) dvi_T = dvi_S.
Proof. vm_compute. reflexivity. Qed.
Definition dvi_last (k : nat) : Z := nth k [852; 852; 852]%Z 0%Z.

Lemma dvi_cycle : forall n, rh_run rh_init dvi_raw (fun _ => false) (dvi_T + n) = at_ rh_step dvi_S (fun _ => (dvi_last, false)) n.
Proof.
  induction n as [|n IH]; [rewrite Nat.add_0_r; exact dvi_S_ok|].
  rewrite Nat.add_succ_r. cbn [at_]. rewrite <- IH.
  change (rh_run rh_init dvi_raw (fun _ => false) (S (dvi_T + n))) with
    (rh_step (rh_run rh_init dvi_raw (fun _ => false) (dvi_T + n)) (dvi_raw (dvi_T + n), false)).
  apply rh_step_ext. intros k K. replace (dvi_T + n) with (60 + (15 + n)) by (unfold dvi_T; lia). rewrite dvi_ex_end by exact K.
  destruct k as [|[|[|k]]]; [vm_compute; reflexivity..|lia].
Qed.
Lemma dvi_blind : forall n, sp_de (rx_sp (rh_rx (at_ rh_step dvi_S (fun _ => (dvi_last, false)) n))) = false.
Proof.
  assert (P : forall n, at_ rh_step dvi_S (fun _ => (dvi_last, false)) (8 + n) = at_ rh_step dvi_S (fun _ => (dvi_last, false)) n).
  { intros n. rewrite at_plus. replace (at_ rh_step dvi_S (fun _ => (dvi_last, false)) 8) with dvi_S by (vm_compute; reflexivity). reflexivity. }
  intros n. induction n as [n IH] using lt_wf_ind.
  destruct (Nat.lt_ge_cases n 8) as [L|L].
  - do 8 (destruct n as [|n]; [vm_compute; reflexivity|]). lia.
  - replace n with (8 + (n - 8)) by lia. rewrite P. apply IH. lia.
Qed.

Fixpoint blind_for (s : rh_st) (t k : nat) : bool :=
  match k with O => true | S k => negb (sp_de (rx_sp (rh_rx s))) && blind_for (rh_step s (dvi_raw t, false)) (S t) k end.
Lemma blind_for_ok : forall k t, blind_for (rh_run rh_init dvi_raw (fun _ => false) t) t k = true ->
  forall j, j < k -> sp_de (rx_sp (rh_rx (rh_run rh_init dvi_raw (fun _ => false) (t + j)))) = false.
Proof.
  induction k as [|k IH]; intros t B j J; [lia|]. cbn [blind_for] in B. apply andb_prop in B as [B1 B2].
  destruct j as [|j]; [rewrite Nat.add_0_r; apply negb_true_iff; exact B1|].
  replace (t + S j) with (S t + j) by lia. apply (IH (S t) B2). lia.
Qed.

(** A DVI source whose picture the receiver built for DVI shows and the one built for HDMI, as it comes out of reset, never does. *)
Theorem C88_dvi_source_refuted : exists p : nat -> px,
  (forall n, (0 <= px_r (p n) < 256 /\ 0 <= px_g (p n) < 256 /\ 0 <= px_b (p n) < 256)%Z) /\
  let raw n k := tx_word p k n in
  (exists n, let d := rx_out rx_init raw n in sp_valid d = true /\ sp_de d = true /\ sp_r d = px_r (p 50)) /\
  forall n, sp_de (rh_out rh_init raw (fun _ => false) n) = false.
Proof.
  exists dvi_ex. split; [intros n; cbn; lia|]. cbv zeta. split.
  - exists 62. vm_compute. repeat split.
  - intros n. unfold rh_out. change (fun n k => tx_word dvi_ex k n) with dvi_raw.
    destruct (Nat.lt_ge_cases n dvi_T) as [L|L].
    + apply (blind_for_ok 75 0); [vm_compute; reflexivity|exact L].
    + replace n with (dvi_T + (n - dvi_T)) by lia. rewrite dvi_cycle. apply dvi_blind.
Qed.

(** Not vacuous: the same source with the DVI bit set from clock 5 on: the pixels come one clock after those of the DVI variant, and DE falls. *)
Example dvi_ex_runs :
  map (fun n => let h := rh_out rh_init dvi_raw (fun t => 5 <=? t) n in (sp_de h, sp_r h)) (seq 62 3) =
  map (fun n => let d := rx_out rx_init dvi_raw n in (sp_de d, sp_r d)) (seq 61 3) /\
  sp_de (rx_out rx_init dvi_raw 67) = true /\ sp_de (rx_out rx_init dvi_raw 68) = false.
Proof. vm_compute. repeat split. Qed.
(** Not vacuous: a guard band, then pixels, after lock: DE rises in HDMI mode. *)
Definition hdmi_ex_raw (n k : nat) : Z := if (n <? 45) || (60 <=? n) then 852%Z else if n <? 47 then video_gb k else 0x100%Z.
Example hdmi_ex_runs : existsb (fun n => sp_de (rh_out rh_init hdmi_ex_raw (fun _ => false) n)) [65] = true.
Proof. vm_compute. reflexivity. Qed.

Print Assumptions C87_dvi_mode.
Print Assumptions C88_only_after_guard_partial.
Print Assumptions C88_dvi_source_refuted.
