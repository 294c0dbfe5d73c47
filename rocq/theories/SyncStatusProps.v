(** C117: the synchronisation state that software reads. *)
From Coq Require Import ZArith List Bool Lia Arith.
From Verif Require Import Hdl Trace CdcModel CdcProofs StatusModel StatusProps TmdsModel TmdsSpec CharSyncModel CharSyncSpec CharSyncProps ChanSyncModel
  TimingModel TimingSpec TimingProofs LinkModel LinkProofs LinkProps HdmiModel HdmiProofs HdmiProps.
Import ListNotations.
Open Scope nat_scope.

(** The three registers as source values, after [t] pixel clocks: char_synced and ctl_pos
    of channel [k] (charsync.py:17-18, 54-57), channels_synced (chansync.py:50, 95). *)
Definition char_synced (s0 : rx_st) (raw : nat -> nat -> Z) (k t : nat) : Z := if cs_synced (rx_cs_of (rx_run s0 raw t) k) then 1%Z else 0%Z.
Definition ctl_pos (s0 : rx_st) (raw : nat -> nat -> Z) (k t : nat) : Z := cs_sel (rx_cs_of (rx_run s0 raw t) k).
Definition channels_synced (s0 : rx_st) (raw : nat -> nat -> Z) (t : nat) : Z := if cy_synced (rx_cy (rx_run s0 raw t)) then 1%Z else 0%Z.

(** Over a link joined at any time, from any receiver state: after thirty blank characters
    software reads lock and the exact bit offset of each channel; after the next line it
    reads that the channels are aligned; for ever, whatever follows. *)
Theorem C117_sync_registers :
  forall (P : nat -> px), (forall n, (0 <= px_r (P n) < 256 /\ 0 <= px_g (P n) < 256 /\ 0 <= px_b (P n) < 256)%Z) ->
  forall N L Lmin raw s0, link_at N P L Lmin raw s0 ->
  forall a b1 b2, a + 30 <= b1 -> b1 + 24 <= b2 ->
  (forall n, a <= n < b1 -> px_de (P (N + n)) = false) ->
  (forall n, b1 <= n < b2 -> px_de (P (N + n)) = true) ->
  (forall n, b2 <= n < b2 + 24 -> px_de (P (N + n)) = false) ->
  forall x q n, q <= n -> 2 <= sys_edges x q n ->
  (forall k, k < 3 -> a + 19 + L k / 10 <= src_clocks x q ->
     reg_read (char_synced s0 raw k) x n = 1%Z /\ reg_read (ctl_pos s0 raw k) x n = Z.of_nat (L k mod 10)) /\
  (b2 + 30 + L 0 / 10 <= src_clocks x q -> reg_read (channels_synced s0 raw) x n = 1%Z).
Proof.
  intros P HP N L Lmin raw s0 (HL & Hraw & Hs0) a b1 b2 H1 H2 B1 AC B2 x q n QN SE.
  assert (Hraw' : forall k, k < 3 -> bit_delayed (fun n => tx_word P k (N + n)) (L k) (fun t => raw t k)).
  { intros k K. destruct (Hraw k K) as [R1 R2]. split; [exact R1|]. intros t Ht. rewrite R2 by exact Ht. rewrite serial_from. f_equal. lia. }
  split.
  - intros k K Q.
    assert (G : forall t, src_clocks x q <= t -> cs_synced (rx_cs_of (rx_run s0 raw t) k) = true /\ cs_sel (rx_cs_of (rx_run s0 raw t) k) = Z.of_nat (L k mod 10)).
    { intros t T. pose proof (link_sel P HP N L raw Hraw' s0 Hs0 a b1 b2 H1 H2 B1 k (t - L k / 10 - 5) K ltac:(lia)) as W. cbv zeta beta in W.
      replace (t - L k / 10 - 5 + L k / 10 + 5) with t in W by lia. exact W. }
    split; apply (reg_settled _ x _ q n QN); try exact SE; intros t T; destruct (G t ltac:(lia)) as [G1 G2]; [unfold char_synced; rewrite G1; reflexivity|exact G2].
  - intros Q. destruct (link_shown P HP N L Lmin HL raw Hraw' s0 Hs0 a b1 b2 H1 H2 B1 AC B2) as (D & DB & W).
    pose proof (DB 0 ltac:(lia)) as D0. apply (reg_settled _ x _ q n QN); [|exact SE]. intros t T.
    destruct (W (t - D) ltac:(lia)) as [S _]. cbv beta in S. replace (t - D + D) with t in S by lia. unfold channels_synced. rewrite S. reflexivity.
Qed.
Print Assumptions C117_sync_registers.

(** A bit that is never cleared, as software reads it. *)
Lemma sticky_read : forall v x, (forall k, v k = 0%Z \/ v k = 1%Z) -> (forall k, v k = 1%Z -> v (S k) = 1%Z) ->
  forall n, reg_read v x n = 1%Z -> v (src_clocks x n) = 1%Z /\ forall m, n <= m -> reg_read v x m = 1%Z.
Proof.
  intros v x V ST.
  assert (R : forall m k b, bit_race m (v k) (v (if b : bool then S k else k)) = 1%Z -> v (if b then S k else k) = 1%Z).
  { intros m k [|] H; [|rewrite race_same in H; exact H]. destruct (V (S k)) as [E|E]; [|exact E]. destruct (V k) as [F|F]; [|exact (ST k F)].
    rewrite E, F, race_same in H. discriminate. }
  assert (G : forall n, let s := mr_run v x n in (mr_m1 s = 1 -> mr_m0 s = 1)%Z /\ (mr_m0 s = 1%Z -> v (mr_k s) = 1%Z)).
  { induction n as [|n [I1 I2]]; [cbv; split; discriminate|]. cbv zeta. rewrite mr_S. unfold mr_step. cbn [mr_m0 mr_m1 mr_k].
    assert (UP : v (mr_k (mr_run v x n)) = 1%Z -> v (if mri_src (x n) then S (mr_k (mr_run v x n)) else mr_k (mr_run v x n)) = 1%Z).
    { intros U. destruct (mri_src (x n)); [apply ST|]; exact U. }
    destruct (mri_sys (x n)); split.
    - intros M. rewrite UP by (apply I2, M). rewrite (I2 M). apply race_same.
    - apply R.
    - exact I1.
    - intros M. apply UP, I2, M. }
  intros n RD. split.
  - rewrite <- (mr_count v x). apply G, G, RD.
  - intros m M. induction M as [|m M IH]; [exact RD|]. unfold reg_read in *. rewrite mr_S. unfold mr_step. cbn [mr_m1].
    destruct (mri_sys (x m)); [apply G|]; exact IH.
Qed.

(** From reset and for every received bit stream, a valid stream or not: the register reads
    0 or 1; if it reads 1 then eight consecutive control words have been received at one bit
    offset, and it reads 1 for ever. *)
Theorem C117_lock_reported_with_evidence :
  forall raw k, k < 3 -> (forall t, (0 <= raw t k < 1024)%Z) ->
  forall x n, (reg_read (char_synced rx_init raw k) x n = 0%Z \/ reg_read (char_synced rx_init raw k) x n = 1%Z) /\
  (reg_read (char_synced rx_init raw k) x n = 1%Z ->
   (exists t p, 8 <= t < src_clocks x n /\ forall j, j < 8 -> control_seen (fun t => raw t k) (t - 1 - j) p) /\
   forall m, n <= m -> reg_read (char_synced rx_init raw k) x m = 1%Z).
Proof.
  intros raw k K Hraw x n. set (v := char_synced rx_init raw k).
  assert (RUN : forall t, rx_cs_of (rx_run rx_init raw t) k = cs_run 8 cs_init (fun t => raw t k) t).
  { intros t. rewrite (rx_cs_run rx_init raw k t K). f_equal. do 3 (destruct k as [|k]; [reflexivity|]). lia. }
  assert (V : forall t, v t = 0%Z \/ v t = 1%Z) by (intros t; unfold v, char_synced; destruct (cs_synced _); auto).
  assert (E : forall t, v t = 1%Z <-> cs_synced (cs_run 8 cs_init (fun t => raw t k) t) = true).
  { intros t. unfold v, char_synced. rewrite RUN. destruct (cs_synced _); split; congruence. }
  assert (EV := C06_lock_needs_evidence 8 ltac:(lia) (fun t => raw t k) Hraw). cbv zeta in EV.
  assert (ST : forall t, v t = 1%Z -> v (S t) = 1%Z) by (intros t T; apply E, EV, E, T).
  split.
  - apply (reg_always v x (fun z => z = 0%Z \/ z = 1%Z)); [auto|]. intros t m. split; [apply V|].
    destruct (V t) as [A|A]; [|rewrite (ST t A), A, race_same; auto]. destruct (V (S t)) as [B|B]; rewrite A, B; [rewrite race_same; auto|].
    unfold bit_race. rewrite !Z.lxor_0_l. destruct (land_pow2 m 0 ltac:(lia)) as [C|C]; change (2 ^ 0)%Z with 1%Z in C; rewrite C; auto.
  - intros RD. destruct (sticky_read v x V ST n RD) as [SY F]. split; [|exact F]. clear RD F.
    induction (src_clocks x n) as [|c IH]; [apply E in SY; discriminate|].
    destruct (V c) as [C|C].
    + exists c, (cs_sel (cs_run 8 cs_init (fun t => raw t k) (S c))).
      destruct (EV c) as [_ W]. destruct W as [W1 W2]; [left; intros X; rewrite (proj1 (E (S c)) SY) in X; symmetry in X; apply E in X; congruence|].
      split; [lia|]. intros j J. apply W2. lia.
    + destruct (IH C) as (t & p & T & W). exists t, p. split; [lia|exact W].
Qed.
Print Assumptions C117_lock_reported_with_evidence.

(** The position is not read in this way: its bits mix when it moves (here from 7 to 8,
    read as 15, which is no position). *)
Example ex_pos_mixes :
  reg_read (fun t => if t <? 3 then 7%Z else 8%Z) (fun _ => {| mri_src := true; mri_sys := true; mri_race := 8%Z |}) 4 = 15%Z.
Proof. vm_compute. reflexivity. Qed.

(** The hypotheses of the first theorem are met, with a receiver that joins late. *)
Definition ex_line (n : nat) : px := {| px_r := 1; px_g := 2; px_b := 3; px_de := Nat.leb 43 n && Nat.ltb n 67; px_hs := true; px_vs := false |}%Z.
Example ex_sync_hyp : exists L raw,
  link_at 5 ex_line L 0 raw rx_init /\
  (forall n, 8 <= n < 38 -> px_de (ex_line (5 + n)) = false) /\ (forall n, 38 <= n < 62 -> px_de (ex_line (5 + n)) = true) /\
  (forall n, 62 <= n < 62 + 24 -> px_de (ex_line (5 + n)) = false).
Proof.
  exists ex_L, (fun n k => delayed (fun t => tx_word ex_line k (5 + t)) (ex_L k) n). split; [|unfold ex_line; cbn [px_de]].
  - split; [intros [|[|[|k]]] Hk; cbn; lia|]. split; [|intros k Hk; apply ex_hyp; exact Hk].
    intros k Hk. destruct (delayed_ok (fun t => tx_word ex_line k (5 + t)) (ex_L k)) as [A B]. split; [exact A|].
    intros b Hb. rewrite B by exact Hb. rewrite serial_from. f_equal. lia.
  - repeat split; intros n Hn; destruct (Nat.leb_spec 43 (5 + n)), (Nat.ltb_spec (5 + n) 67); try lia; reflexivity.
Qed.
