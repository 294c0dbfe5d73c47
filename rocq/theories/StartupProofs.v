(** Auxiliary lemmas for StartupProps: the stream with underflows seen through the
    link, and the stream of the whole output core as such a stream. *)
From Coq Require Import ZArith List Bool Lia Arith.
From Verif Require Import Hdl Trace TmdsModel TmdsSpec AnalysisModel TimingModel TimingSpec TimingProofs VideoOutModel VideoOutProofs
  HdmiModel HdmiProofs LinkModel LinkProofs LinkProps PhyModel PhyProps.
Import ListNotations.
Open Scope Z_scope.

(** A stream that shows the point [pos n] of the scan in clock [n]; from clock [T] on
    it is the undisturbed stream of the words [w], [u] clocks late. *)
Section Late.
Variable p : fparam.
Hypothesis lk : link_ok p.
Variable w : nat -> Z.
Variables (o : nat -> px) (pos : nat -> nat) (T u : nat).
Hypothesis pos_S : forall n, pos (S n) = pos n \/ pos (S n) = S (pos n).
Hypothesis shows : forall n, px_de (o n) = tx_de p (pos n) /\ px_hs (o n) = tx_hs p (pos n) /\ px_vs (o n) = tx_vs p (pos n).
Hypothesis px_range : forall n, 0 <= px_r (o n) < 256 /\ 0 <= px_g (o n) < 256 /\ 0 <= px_b (o n) < 256.
Hypothesis pos_late : forall n, (T <= n)%nat -> (pos n + u = n)%nat.
Hypothesis data : forall n, (T <= n)%nat -> px_de (o n) = true -> let d := w (pixels_before p (pos n - 1)) in
  px_r (o n) = slice 0 8 d /\ px_g (o n) = slice 8 8 d /\ px_b (o n) = slice 16 8 d.

Variable g : Z.
Hypothesis Hg : 1 <= g.
Hypothesis HTg : Z.of_nat T + 30 <= Z.of_nat u + Z.of_nat (clk p g 0 0).

Variable L : nat -> nat.
Variable Lmin : nat.
Variable raw : nat -> nat -> Z.
Variable s0 : rx_st.
(** The receiver starts when the transmitter is at clock [N]. *)
Variable N : nat.
Hypothesis HN : (N <= T)%nat.
Hypothesis Hlink : link_at N o L Lmin raw s0.

Lemma link_late_at : exists D, (forall k, (k < 3)%nat -> (L k / 10 + 7 < D <= L k / 10 + 15)%nat) /\
  forall n, (clk p (g + 1) 0 (p_hres p) <= n)%nat ->
  let q := rx_sp (rx_run s0 raw (n + u - N + D)) in
  sp_valid q = true /\ sp_de q = tx_de p n /\ sp_hsync q = tx_hs p n /\ sp_vsync q = tx_vs p n /\
  (tx_de p n = true ->
   let d := w (pixels_before p (n - 1)) in sp_r q = slice 0 8 d /\ sp_g q = slice 8 8 d /\ sp_b q = slice 16 8 d).
Proof.
  destruct Hlink as (HL & Hraw & Hs0). pose proof lk as LK. destruct LK as [ok' ? ? ? ? ?]. destruct ok' as [? ? ? ? ? ? ? ?].
  pose proof (clk_z p lk g 0 0 ltac:(lia) ltac:(lia) ltac:(lia)) as Z1.
  set (HV := (p_hscan p + 1) * (p_vscan p + 1)) in *.
  assert (POS : 2 * (p_hres p + 30) <= HV) by (unfold HV; nia).
  assert (E1 : (g * (p_vscan p + 1) + 0) * (p_hscan p + 1) = g * HV) by (unfold HV; ring).
  assert (GE : HV <= g * HV) by nia.
  assert (SH : forall n, (clk p g 0 0 - 30 <= n)%nat -> (T <= n + u)%nat /\ pos (n + u) = n).
  { intros n Hn. assert (TN : (T <= n + u)%nat) by lia. split; [exact TN|]. pose proof (pos_late _ TN). lia. }
  assert (Hraw' : forall k, (k < 3)%nat -> bit_delayed (fun n => tx_word o k (N + n)%nat) (L k) (fun t => raw t k)).
  { intros k K. destruct (Hraw k K) as [R1 R2]. split; [exact R1|]. intros t Ht. rewrite R2 by exact Ht. rewrite serial_from. f_equal. lia. }
  destruct (link_joined o px_range N L Lmin HL raw Hraw' s0 Hs0
    (clk p g 0 0 - 30 + u - N) (clk p g 0 0 + u - N) (clk p g 0 0 + Z.to_nat (p_hres p) + u - N) ltac:(lia) ltac:(lia)) as (D & B & P & Sy).
  - intros n' Hn'. set (n := (N + n')%nat). assert (Hn : (clk p g 0 0 - 30 + u <= n)%nat) by lia. assert (Hn2 : (n = N + n')%nat) by reflexivity. clearbody n. replace n with (n - u + u)%nat by lia. destruct (SH (n - u)%nat ltac:(lia)) as [_ S1].
    destruct (shows (n - u + u)%nat) as (-> & _). rewrite S1.
    replace (n - u)%nat with (clk p (g - 1) (p_vscan p) (p_hscan p + 1 - (Z.of_nat (clk p g 0 0) - Z.of_nat (n - u)))).
    + rewrite clk_de by (try exact lk; lia). destruct (Z.ltb_spec (p_vscan p) (p_vres p)); [lia|]. apply andb_false_r.
    + apply Nat2Z.inj. rewrite clk_z by (try exact lk; lia). rewrite Z1. lia.
  - intros n' Hn'. set (n := (N + n')%nat). assert (Hn : (clk p g 0 0 - 30 + u <= n)%nat) by lia. assert (Hn2 : (n = N + n')%nat) by reflexivity. clearbody n. replace n with (n - u + u)%nat by lia. destruct (SH (n - u)%nat ltac:(lia)) as [_ S1].
    destruct (shows (n - u + u)%nat) as (-> & _). rewrite S1.
    replace (n - u)%nat with (clk p g 0 (0 + Z.of_nat (n - u - clk p g 0 0))).
    + rewrite clk_de by (try exact lk; lia). apply andb_true_iff. split; apply Z.ltb_lt; lia.
    + rewrite clk_succ_x by (try exact lk; lia). lia.
  - intros n' Hn'. set (n := (N + n')%nat). assert (Hn : (clk p g 0 0 - 30 + u <= n)%nat) by lia. assert (Hn2 : (n = N + n')%nat) by reflexivity. clearbody n. replace n with (n - u + u)%nat by lia. destruct (SH (n - u)%nat ltac:(lia)) as [_ S1].
    destruct (shows (n - u + u)%nat) as (-> & _). rewrite S1.
    replace (n - u)%nat with (clk p g 0 (0 + Z.of_nat (n - u - clk p g 0 0))).
    + rewrite clk_de by (try exact lk; lia). apply andb_false_iff. left. apply Z.ltb_ge; lia.
    + rewrite clk_succ_x by (try exact lk; lia). lia.
  - exists D. split; [exact B|].
    pose proof (clk_z p lk (g + 1) 0 (p_hres p) ltac:(lia) ltac:(lia) ltac:(lia)) as Z2.
    pose proof (clk_z p lk (g + 1) 0 (p_hres p - 1) ltac:(lia) ltac:(lia) ltac:(lia)) as Z3.
    assert (E2 : ((g + 1) * (p_vscan p + 1) + 0) * (p_hscan p + 1) = g * HV + HV) by (unfold HV; ring).
    assert (Hf : S (clk p (g + 1) 0 (p_hres p - 1)) = clk p (g + 1) 0 (p_hres p)) by lia.
    assert (Hb : (clk p g 0 0 + Z.to_nat (p_hres p) + 16 <= clk p (g + 1) 0 (p_hres p - 1))%nat) by lia.
    intros n Hn q. destruct (SH n ltac:(lia)) as [TN S1]. destruct (shows (n + u)%nat) as (Q1 & _). rewrite S1 in Q1.
    pose proof (data (n + u)%nat TN) as Q4. cbv zeta in Q4. rewrite S1 in Q4.
    destruct (P (n + u - N)%nat ltac:(lia)) as (P1 & P2 & P3). cbv zeta in P1, P2, P3.
    fold q in P1, P2, P3. replace (N + (n + u - N))%nat with (n + u)%nat in P2, P3 by lia. rewrite Q1 in P2, P3.
    destruct (Sy (fun n => tx_hs p (pos (N + n)%nat)) (fun n => tx_vs p (pos (N + n)%nat)) false false) with
      (f := (clk p (g + 1) 0 (p_hres p - 1) + u - N)%nat) (n := (n + u - N)%nat) as [Y1 Y2].
    + intros m. destruct (shows (N + m)%nat) as (_ & -> & ->). rewrite !xorb_false_r. auto.
    + intros a' m' Ha A1' A2'. set (a := (N + a')%nat) in *. set (m := (N + m')%nat) in *.
      assert (A1 : (a <= m + 1)%nat) by (unfold a, m; lia). assert (A2 : (m <= a + 1)%nat) by (unfold a, m; lia). clearbody a m. destruct (shows a) as (Q & _). rewrite Q in Ha. apply (tx_away p lk (pos a) (pos m) Ha).
      * assert (a <= m \/ a = S m)%nat as [X| ->] by lia.
        -- clear - X pos_S. induction X as [|m X IH]; [lia|]. destruct (pos_S m); lia.
        -- destruct (pos_S m); lia.
      * assert (m <= a \/ m = S a)%nat as [X| ->] by lia.
        -- clear - X pos_S. induction X as [|a X IH]; [lia|]. destruct (pos_S a); lia.
        -- destruct (pos_S a); lia.
    + lia.
    + replace (N + (clk p (g + 1) 0 (p_hres p - 1) + u - N))%nat with (clk p (g + 1) 0 (p_hres p - 1) + u)%nat by lia.
      destruct (shows (clk p (g + 1) 0 (p_hres p - 1) + u)%nat) as (-> & _).
      destruct (SH (clk p (g + 1) 0 (p_hres p - 1)) ltac:(lia)) as [_ ->].
      rewrite clk_de by (try exact lk; lia). apply andb_true_iff. split; apply Z.ltb_lt; lia.
    + replace (N + S (clk p (g + 1) 0 (p_hres p - 1) + u - N))%nat with (S (clk p (g + 1) 0 (p_hres p - 1) + u))%nat by lia.
      destruct (shows (S (clk p (g + 1) 0 (p_hres p - 1) + u))%nat) as (-> & _).
      replace (S (clk p (g + 1) 0 (p_hres p - 1) + u))%nat with (clk p (g + 1) 0 (p_hres p) + u)%nat by lia.
      destruct (SH (clk p (g + 1) 0 (p_hres p)) ltac:(lia)) as [_ ->].
      rewrite clk_de by (try exact lk; lia). apply andb_false_iff. left. apply Z.ltb_ge; lia.
    + lia.
    + cbv zeta in Y1, Y2. fold q in Y1, Y2. replace (N + (n + u - N))%nat with (n + u)%nat in Y1, Y2 by lia. rewrite S1 in Y1, Y2.
      split; [exact P1|]. split; [exact P2|]. split; [exact Y1|]. split; [exact Y2|].
      intros TT. destruct (P3 TT) as (R & G & Bl).
      destruct (Q4 ltac:(rewrite Q1; exact TT)) as (R' & G' & B').
      cbv zeta. rewrite <- R', <- G', <- B'. auto.
Qed.
End Late.

(** Both start together. *)
Lemma link_late : forall (p : fparam) (lk : link_ok p) (w : nat -> Z) (o : nat -> px) (pos : nat -> nat) (T u : nat),
  (forall n, pos (S n) = pos n \/ pos (S n) = S (pos n)) ->
  (forall n, px_de (o n) = tx_de p (pos n) /\ px_hs (o n) = tx_hs p (pos n) /\ px_vs (o n) = tx_vs p (pos n)) ->
  (forall n, 0 <= px_r (o n) < 256 /\ 0 <= px_g (o n) < 256 /\ 0 <= px_b (o n) < 256) ->
  (forall n, (T <= n)%nat -> (pos n + u = n)%nat) ->
  (forall n, (T <= n)%nat -> px_de (o n) = true -> let d := w (pixels_before p (pos n - 1)) in
   px_r (o n) = slice 0 8 d /\ px_g (o n) = slice 8 8 d /\ px_b (o n) = slice 16 8 d) ->
  forall g, 1 <= g -> Z.of_nat T + 30 <= Z.of_nat u + Z.of_nat (clk p g 0 0) ->
  forall L Lmin raw s0, link o L Lmin raw s0 ->
  exists D, (forall k, (k < 3)%nat -> (L k / 10 + 7 < D <= L k / 10 + 15)%nat) /\
  forall n, (clk p (g + 1) 0 (p_hres p) <= n)%nat ->
  let q := rx_sp (rx_run s0 raw (n + (u + D))) in
  sp_valid q = true /\ sp_de q = tx_de p n /\ sp_hsync q = tx_hs p n /\ sp_vsync q = tx_vs p n /\
  (tx_de p n = true ->
   let d := w (pixels_before p (n - 1)) in sp_r q = slice 0 8 d /\ sp_g q = slice 8 8 d /\ sp_b q = slice 16 8 d).
Proof.
  intros p lk w o pos T u H1 H2 H3 H4 H5 g Hg HTg L Lmin raw s0 Hl.
  destruct (link_late_at p lk w o pos T u H1 H2 H3 H4 H5 g Hg HTg L Lmin raw s0 0 ltac:(lia) (link_at_0 _ _ _ _ _ Hl)) as (D & B & P).
  exists D. split; [exact B|]. intros n Hn q. specialize (P n Hn). cbv zeta in P. replace (n + u - 0 + D)%nat with (n + (u + D))%nat in P by lia. exact P.
Qed.


Section Uf.
Variable p : fparam.
Hypothesis lk : link_ok p.
Variable w : nat -> Z.
Variable dv : nat -> bool.
Variable junk : nat -> Z.
Let o := uf_stream p w dv junk.
Let pos n := (n - underflows o dv n)%nat.
Let ok := lk_ok p lk.

Lemma pos_S : forall n, pos (S n) = pos n \/ pos (S n) = S (pos n).
Proof.
  intros n. unfold pos, underflows. cbn [occurrences]. rewrite Nat.add_0_l.
  pose proof (uf_le (fun m => px_de (o m) && negb (dv m)) n). destruct (px_de (o n) && negb (dv n)); lia.
Qed.

Lemma uf_shows : forall n, px_de (o n) = tx_de p (pos n) /\ px_hs (o n) = tx_hs p (pos n) /\ px_vs (o n) = tx_vs p (pos n) /\
  (dv n = true -> let d := w (pixels_before p (pos n - 1)) in
   px_r (o n) = slice 0 8 d /\ px_g (o n) = slice 8 8 d /\ px_b (o n) = slice 16 8 d).
Proof.
  intros n. destruct (uf_inv p ok w dv junk n) as [I1 I2]. cbv zeta in I1, I2.
  change (n - occurrences (fun m => px_de (uf_stream p w dv junk m) && negb (dv m)) 0 n)%nat with (pos n) in I1, I2.
  split; [|split; [|split]].
  - change (px_de (o n)) with (tg_de true (vs_tg (vs_run false w (uf_in p dv) n))). rewrite I1.
    unfold tg_de, tg_at, tx_de, spec_de. cbn [t_hact t_vact]. rewrite one_le. destruct (1 <=? pos n)%nat; reflexivity.
  - change (px_hs (o n)) with (t_hs (vs_tg (vs_run false w (uf_in p dv) n))). rewrite I1. cbn [tg_at t_hs]. rewrite one_le. reflexivity.
  - change (px_vs (o n)) with (t_vs (vs_tg (vs_run false w (uf_in p dv) n))). rewrite I1. cbn [tg_at t_vs]. rewrite one_le. reflexivity.
  - intros D d. unfold o, uf_stream. cbv zeta. cbn [tx_px px_r px_g px_b vi_data]. rewrite D, I2. fold d. auto.
Qed.

Lemma uf_px_ok : forall n, 0 <= px_r (o n) < 256 /\ 0 <= px_g (o n) < 256 /\ 0 <= px_b (o n) < 256.
Proof. intros n. unfold o, uf_stream. cbv zeta. cbn [tx_px px_r px_g px_b]. repeat split; apply slice8. Qed.

Variable T : nat.
Hypothesis HT : forall n, (T <= n)%nat -> px_de (o n) = true -> dv n = true.
Let u := underflows o dv T.

Lemma pos_late : forall n, (T <= n)%nat -> (pos n + u = n)%nat.
Proof.
  intros n H. induction H as [|n H IH].
  - unfold pos, u. pose proof (uf_le (fun m => px_de (o m) && negb (dv m)) T). fold (underflows o dv T) in *. lia.
  - unfold pos, underflows in *. cbn [occurrences]. rewrite Nat.add_0_l.
    pose proof (uf_le (fun m => px_de (o m) && negb (dv m)) n) as LE.
    destruct (px_de (o n)) eqn:E; cbn [andb]; [rewrite (HT n H E); cbn [negb]|]; lia.
Qed.

Variable g : Z.
Hypothesis Hg : 1 <= g.
Hypothesis HTg : Z.of_nat T + 30 <= Z.of_nat u + Z.of_nat (clk p g 0 0).

Variable L : nat -> nat.
Variable Lmin : nat.
Variable raw : nat -> nat -> Z.
Variable s0 : rx_st.
Hypothesis Hlink : link o L Lmin raw s0.

Lemma link_uf : exists D, (forall k, (k < 3)%nat -> (L k / 10 + 7 < D <= L k / 10 + 15)%nat) /\
  forall n, (clk p (g + 1) 0 (p_hres p) <= n)%nat ->
  let q := rx_sp (rx_run s0 raw (n + (u + D))) in
  sp_valid q = true /\ sp_de q = tx_de p n /\ sp_hsync q = tx_hs p n /\ sp_vsync q = tx_vs p n /\
  (tx_de p n = true ->
   let d := w (pixels_before p (n - 1)) in sp_r q = slice 0 8 d /\ sp_g q = slice 8 8 d /\ sp_b q = slice 16 8 d).
Proof.
  apply (link_late p lk w o pos T u) with (Lmin := Lmin); [exact pos_S| |exact uf_px_ok|exact pos_late| |exact Hg|exact HTg|exact Hlink].
  - intros n. destruct (uf_shows n) as (A & B & C & _). auto.
  - intros n N E. destruct (uf_shows n) as (_ & _ & _ & A). exact (A (HT n N E)).
Qed.
End Uf.

(** * The whole output core as a stream with underflows *)
Section Vt.
Variables (aw : Z) (depth : nat) (pr : vparam) (i : nat -> vt_in).
Let p := vp_t pr.
Hypothesis Haw : 0 <= aw.
Hypothesis Hlen : 0 < vp_length pr <= 2 ^ aw.
Hypothesis ok : params_ok p.
Hypothesis Hpush : forall n q, ti_push (i n) = Some q -> q = pr.
Variables (D : dr_st) (W : list Z) (X : nat) (c0 : Z).
Let st := at_ (vt_step aw depth) {| vt_tg := tg_init; vt_dr := D; vt_q := [pr]; vt_reads := W |} i.
Let V := W ++ map (fun j => trunc aw (vp_base pr + (2 ^ aw - Z.of_nat X + Z.of_nat j))) (seq 0 X).
Hypothesis Hc0 : 0 <= c0.
Hypothesis HD : reader_at aw pr D X c0.
Hypothesis Hq : forall n, vt_q (st n) <> [].
Hypothesis Hready : forall n, ti_ready (i n) = true.
Variable M : Z -> Z.
Variable junk : nat -> Z.
Let dv n := vi_dv (vt_vi (st n) (i n)).
Let w q := M (wordat aw pr V c0 q).
Let o := uf_stream p w dv junk.

Lemma vt_tg_eq : forall n, vt_tg (st n) = vs_tg (vs_run false w (uf_in p dv) n).
Proof.
  induction n as [|n IH]; [reflexivity|].
  change (st (S n)) with (vt_step aw depth (st n) (i n)).
  change (vs_run false w (uf_in p dv) (S n)) with (vs_step false w (vs_run false w (uf_in p dv) n) (uf_in p dv n)).
  unfold vt_step, vs_step. cbv zeta. cbn [vt_tg vs_tg]. rewrite <- IH.
  destruct (vt_head_const aw depth pr i Hpush D W Hq n) as [Hh Hv]. fold st in Hh, Hv.
  unfold vo_step, vo_tready, vo_valid. fold (dv n).
  cbn [vs_vi uf_in vi_valid vi_p vi_dv vi_ready si_valid si_p si_dv si_ready].
  replace (vi_dv (vt_vi (st n) (i n))) with (dv n) by reflexivity.
  cbn [vt_vi vi_valid vi_p vi_ready]. rewrite Hh, Hv, Hready. reflexivity.
Qed.

Lemma vt_is_uf : forall n, vt_px M (junk n) (st n) (i n) = o n.
Proof.
  intros n. unfold o, uf_stream. cbv zeta. rewrite <- vt_tg_eq. unfold vt_px. cbv zeta.
  destruct (vt_head_const aw depth pr i Hpush D W Hq n) as [Hh Hv]. fold st in Hh, Hv.
  replace (vi_dv (vt_vi (st n) (i n))) with (dv n) by reflexivity.
  assert (XE : dv n = true -> M (vi_data (vt_vi (st n) (i n))) = w (vs_taken (vs_run false w (uf_in p dv) n))).
  { intros DV. destruct (uf_inv p ok w dv junk n) as [_ I2]. cbv zeta in I2. rewrite I2.
    set (pos := fun n => (n - occurrences (fun m => px_de (uf_stream p w dv junk m) && negb (dv m)) 0 n)%nat).
    fold (pos n).
    assert (A : forall m, occurrences (fun m => vt_xfer (st m) (i m)) 0 m = pos m).
    { induction m as [|m IH]; [reflexivity|]. unfold pos in *. cbn [occurrences]. rewrite IH, !Nat.add_0_l.
      pose proof (uf_le (fun m => px_de (uf_stream p w dv junk m) && negb (dv m)) m) as LE.
      destruct (vt_head_const aw depth pr i Hpush D W Hq m) as [_ Hvm]. fold st in Hvm.
      change (px_de (uf_stream p w dv junk m)) with (tg_de true (vs_tg (vs_run false w (uf_in p dv) m))). rewrite <- vt_tg_eq.
      unfold vt_xfer, vo_transfer, vo_valid. replace (vi_dv (vt_vi (st m) (i m))) with (dv m) by reflexivity.
      cbn [vt_vi vi_valid vi_ready]. rewrite Hvm, Hready.
      destruct (tg_de true (vt_tg (st m))), (dv m); cbn [negb orb andb]; lia. }
    destruct (vt_reads_inv aw depth pr i Haw Hlen ok Hpush D W X c0 Hq Hc0 HD n) as (c & _ & E). cbv zeta in E. fold st p in E.
    rewrite A in E. unfold dv in DV. cbn [vt_vi vi_dv vi_data] in DV |- *. fold st in E.
    destruct c as [|c]; [rewrite E in DV; cbn [seq map] in DV; rewrite andb_false_r in DV; discriminate|].
    rewrite E. reflexivity. }
  unfold tx_px. cbn [vi_data vi_valid].
  replace (if dv n then M (vi_data (vt_vi (st n) (i n))) else junk n)
    with (if dv n then w (vs_taken (vs_run false w (uf_in p dv) n)) else junk n)
    by (destruct (dv n); [symmetry; apply XE; reflexivity|reflexivity]).
  cbn [vt_vi vi_valid]. rewrite Hv. reflexivity.
Qed.
End Vt.
