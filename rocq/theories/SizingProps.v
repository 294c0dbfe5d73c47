(** C119: how deep the reader's buffer must be for the output never to underflow. *)
From Coq Require Import ZArith List Bool Lia Arith.
From Verif Require Import Hdl Trace CdcProofs AnalysisModel TimingModel TimingSpec TimingProofs VideoOutModel VideoOutProofs
  HdmiModel HdmiProofs LinkModel LinkProofs LinkProps InDmaModel FifoModel FifoProofs FifoProps CaptureModel CaptureProofs CaptureProps
  FrameProofs FrameProps InDmaProofs InDmaProps GenlockProps PhyModel PhyProps StartupProofs StartupProps OutTopModel OutTopProofs OutTopProps
  CaptureLiveProofs CaptureLiveProps FrameLiveProofs SizingProofs
  CharSyncModel CharSyncSpec CharSyncProofs ChanSyncModel ChanSyncProofs SerialModel SerialProps GearModel GearProps SerialLinkProps ClockModel ClockProps JoinProps LockProps.
Import ListNotations.
Open Scope Z_scope.

(** What is assumed of the memory from edge [n0] of the output's clock on, when [asked n] says
    that it accepts a read command at edge [n], [got n] that a word is taken from the
    buffer, [willing n] that it would accept a command, and [back n] that the oldest word
    asked for has come back: among any [frame] successive edges there are at most [s] at which it is not
    willing, and a word is back at most [lat] edges after its command. *)
Definition memory_keeps_up (n0 frame lat s : nat) (willing back asked got : nat -> bool) : Prop :=
  (forall n, (n0 <= n)%nat -> (occurrences (fun x => negb (willing x)) n frame <= s)%nat) /\
  (forall m n, (n0 <= m)%nat -> (m + lat <= n)%nat -> (occurrences got n0 (n - n0) < occurrences asked n0 (S m - n0))%nat -> back n = true).

Section Sizing.
Variables (shift aw : Z) (depth : nat) (mem : list (list Z)) (ra : Z) (i : nat -> ot_in).
Hypothesis Haw : 0 <= aw.
Hypothesis HM : length mem = 4%nat.
Variables (u : nat) (R : list Z) (t0 : nat).
Hypothesis Hon : enabled_with shift aw depth mem ra i u R t0.
Let p := timing_of R.
Hypothesis ok : params_ok p.
Hypothesis Hpix : 0 < p_hres p * p_vres p < 2 ^ aw.
Hypothesis Hl : nth 9 R 0 / 2 ^ shift = p_hres p * p_vres p.
Variable E : nat -> nat.
Hypothesis HE : clocks i ((p_hscan p + 1) * (p_vscan p + 1)) E.
Hypothesis Hready : forall x, ot_ready (i x) = true.
Variables (M : Z -> Z) (junk : nat -> Z).
Let st := ot_run shift aw depth mem ra i.
Let o n := ot_px shift aw M (junk n) (st (E n)) (i (E n)).
Let dv n := ot_dv shift aw (st (E n)) (i (E n)).
Let n0 := occurrences (fun x => ot_cd (i x)) 0 t0.
Let asked n := match ot_addr shift aw depth (st (E n)) (i (E n)) with Some _ => true | None => false end.
Let got n := px_de (o n) && dv n.
Let pr := regs_param shift aw R.
Let ci := ot_core_in shift aw i R t0 E.
Let vt := at_ (vt_step aw depth) {| vt_tg := tg_init; vt_dr := dr_init; vt_q := [pr]; vt_reads := [] |} ci.

Lemma ci_push : forall n q, ti_push (ci n) = Some q -> q = pr.
Proof. intros n q H. injection H. auto. Qed.
Lemma ci_q : forall n, vt_q (vt n) <> [].
Proof. exact (refilled aw depth pr dr_init [] ci (fun _ => eq_refl)). Qed.

Lemma core_same : forall k, asked (n0 + k)%nat = c_issue aw depth pr ci k /\ got (n0 + k)%nat = c_take aw depth pr ci k /\
  dv (n0 + k)%nat = vi_dv (vt_vi (vt k) (ci k)).
Proof.
  intros k. destruct (first_start shift aw depth mem ra i u R t0 HM Hon) as (F1 & F2 & F3 & F4). destruct HE as [HE1 HE2].
  assert (HK : forall t v, (t0 <= t)%nat -> ini_out (ot_ini (st t)) = Some v ->
    vp_t (regs_param shift aw v) = vp_t (regs_param shift aw R) /\ vp_length (regs_param shift aw v) = vp_length (regs_param shift aw R)).
  { intros t v T O. rewrite (F2 t v T O). auto. }
  assert (HS : forall a b, (a <= b)%nat -> (Z.to_nat ((p_hscan p + 1) * (p_vscan p + 1)) <= occurrences (fun x => ot_cd (i x)) a (b - a) + 2)%nat ->
    (4 <= occurrences (fun x => ot_sys (i x)) a (b - a))%nat) by (intros a b AB HX; apply HE2; [exact AB|lia]).
  assert (GE : (t0 <= E (n0 + k))%nat) by (apply (E_after shift aw mem i HM R t0 E HE1); fold n0; lia).
  pose proof (ot_same shift aw depth mem ra i HM R t0 dr_init [] F1 HK F3 F4 ok E HE1 HS F2 (E (n0 + k)%nat) GE) as SM.
  cbv beta zeta in SM. destruct (HE1 (n0 + k)%nat) as [_ EN]. fold n0 in SM. rewrite EN in SM. replace (n0 + k - n0)%nat with k in SM by lia.
  destruct SM as (S1 & S2 & S3).
  destruct (ot_inv_all shift aw depth mem ra i HM R t0 dr_init [] F1 HK F3 F4 ok E HE1 HS (E (n0 + k)%nat) GE) as ((v0 & I1) & _).
  pose proof (F2 _ v0 GE I1) as ->. fold st in S1, S2, S3, I1.
  destruct (vt_head_const aw depth pr ci ci_push dr_init [] ci_q k) as [Hh Hv]. fold vt in Hh, Hv.
  assert (VV : vt_valid (ot_vt shift aw (st (E (n0 + k)%nat))) = true) by (unfold vt_valid; cbn [ot_vt vt_q]; rewrite I1; reflexivity).
  assert (VH : vt_head (ot_vt shift aw (st (E (n0 + k)%nat))) (ot_ti shift aw (st (E (n0 + k)%nat)) (i (E (n0 + k)%nat))) = pr) by (unfold vt_head; cbn [ot_vt vt_q]; rewrite I1; reflexivity).
  pose proof (o_core shift aw depth mem ra i HM R t0 dr_init [] F1 HK F3 F4 ok E HE1 HS F2 M junk k) as [O1 O2].
  assert (OD : dv (n0 + k)%nat = vi_dv (vt_vi (vt k) (ci k))) by exact O2.
  assert (OP : o (n0 + k)%nat = vt_px M (junk (n0 + k)%nat) (vt k) (ci k)) by exact O1.
  split; [|split; [|exact OD]].
  - unfold asked, c_issue, ot_addr. fold ci vt.
    assert (DI : vt_di depth (ot_vt shift aw (st (E (n0 + k)%nat))) (ot_ti shift aw (st (E (n0 + k)%nat)) (i (E (n0 + k)%nat))) = vt_di depth (vt k) (ci k)).
    { unfold vt_di. rewrite VV, VH, Hv, Hh. cbn [ot_vt vt_reads]. rewrite S3. reflexivity. }
    rewrite DI, S2. reflexivity.
  - unfold got, c_take. rewrite OD, OP. fold ci vt. unfold vt_px. cbv zeta. cbn [tx_px px_de]. cbn [vt_vi vi_valid]. rewrite Hv. reflexivity.
Qed.
Lemma shifted : forall f g, (forall k, f (n0 + k)%nat = g k) -> forall a k, occurrences f (n0 + a) k = occurrences g a k.
Proof. intros f g H a k. induction k as [|k IH]; [reflexivity|]. cbn [occurrences]. rewrite IH, <- (H (a + k)%nat), Nat.add_assoc. reflexivity. Qed.

Variables (lat s : nat).
Let frame := Z.to_nat ((p_hscan p + 1) * (p_vscan p + 1)).
Hypothesis Hmem : memory_keeps_up n0 frame lat s (fun n => ot_mem (i (E n))) (fun n => ot_ret (i (E n))) asked got.
Hypothesis Hlat : (1 <= lat)%nat.
Hypothesis Hdepth : (lat + s + 2 <= depth)%nat.
Lemma no_underflow : forall (gain K : nat), (0 < gain)%nat -> Z.of_nat gain <= p_hres p * p_vres p ->
  p_hres p * p_vres p + Z.of_nat (s + 2 + gain) <= (p_hscan p + 1) * (p_vscan p + 1) -> (depth <= K * gain)%nat ->
  forall n, (n0 + K * frame <= n)%nat -> dv n = true.
Proof.
  intros gain K G1 G2 G3 G4 n N. destruct Hmem as [M1 M2]. replace n with (n0 + (n - n0))%nat by lia.
  rewrite (proj2 (proj2 (core_same (n - n0)))).
  pose proof (len_pr shift aw R Hpix Hl) as LP. fold p pr in LP.
  apply (core_there aw depth pr ci Haw ltac:(rewrite LP; lia) ok ltac:(rewrite LP; reflexivity) ci_push ci_q (fun m => Hready _) lat s K) with (c := gain).
  - intros m. rewrite <- (shifted (fun x => negb (ot_mem (i (E x)))) (c_refuse ci) (fun k => eq_refl) m). apply (M1 (n0 + m)%nat). lia.
  - intros m k MK OC. apply (M2 (n0 + m)%nat (n0 + k)%nat); [lia|lia|].
    replace (n0 + k - n0)%nat with k by lia. replace (S (n0 + m) - n0)%nat with (S m) by lia.
    replace n0 with (n0 + 0)%nat by lia. rewrite (shifted got (c_take aw depth pr ci) (fun k => proj1 (proj2 (core_same k))) 0).
    rewrite (shifted asked (c_issue aw depth pr ci) (fun k => proj1 (core_same k)) 0). exact OC.
  - exact Hlat.
  - exact Hdepth.
  - rewrite LP. lia.
  - rewrite LP. change (vp_t pr) with p. lia.
  - exact G1.
  - exact G4.
  - change (vp_t pr) with p. fold frame. lia.
Qed.
End Sizing.

(** The reader's buffer is [lat + s + 2] words deep or deeper, and the blanking of a frame
    has [s + 2 + gain] clocks or more.  Then the buffer fills by at least [gain] words in
    every frame until it has been full, and never again is a word missing. *)
Theorem C119_never_underflows :
  forall shift aw depth mem ra (i : nat -> ot_in), 0 <= aw -> length mem = 4%nat ->
  forall u R t0, enabled_with shift aw depth mem ra i u R t0 ->
  let p := timing_of R in params_ok p -> 0 < p_hres p * p_vres p < 2 ^ aw -> nth 9 R 0 / 2 ^ shift = p_hres p * p_vres p ->
  forall E, clocks i ((p_hscan p + 1) * (p_vscan p + 1)) E -> (forall x, ot_ready (i x) = true) ->
  forall M junk, let st := ot_run shift aw depth mem ra i in
  let o n := ot_px shift aw M (junk n) (st (E n)) (i (E n)) in
  let dv n := ot_dv shift aw (st (E n)) (i (E n)) in
  let n0 := occurrences (fun x => ot_cd (i x)) 0 t0 in
  let asked n := match ot_addr shift aw depth (st (E n)) (i (E n)) with Some _ => true | None => false end in
  let frame := Z.to_nat ((p_hscan p + 1) * (p_vscan p + 1)) in
  forall lat s, memory_keeps_up n0 frame lat s (fun n => ot_mem (i (E n))) (fun n => ot_ret (i (E n))) asked (fun n => px_de (o n) && dv n) ->
  (1 <= lat)%nat -> (lat + s + 2 <= depth)%nat ->
  forall (gain K : nat), (0 < gain)%nat -> Z.of_nat gain <= p_hres p * p_vres p ->
  p_hres p * p_vres p + Z.of_nat (s + 2 + gain) <= (p_hscan p + 1) * (p_vscan p + 1) -> (depth <= K * gain)%nat ->
  (forall n, (n0 + K * frame <= n)%nat -> dv n = true) /\
  (forall n, (n0 + K * frame <= n)%nat -> underflows o dv n = underflows o dv (n0 + K * frame)).
Proof.
  intros shift aw depth mem ra i Haw HM u R t0 Hon p ok Hpix Hl E HE Hready M junk st o dv n0 asked frame lat s Hmem Hlat Hdepth gain K G1 G2 G3 G4.
  assert (DV : forall n, (n0 + K * frame <= n)%nat -> dv n = true)
    by exact (no_underflow shift aw depth mem ra i Haw HM u R t0 Hon ok Hpix Hl E HE Hready M junk lat s Hmem Hlat Hdepth gain K G1 G2 G3 G4).
  split; [exact DV|]. intros n N. unfold underflows. replace n with (n0 + K * frame + (n - (n0 + K * frame)))%nat by lia. rewrite occ_app.
  rewrite (occ_zero _ (0 + (n0 + K * frame))); [lia|]. intros x X. rewrite DV by lia. apply andb_false_r.
Qed.
Print Assumptions C119_never_underflows.

(** With such a memory the whole way from the registers of the output to a filled slot of
    the receiver, whose clock generator may lock at any time (C116), needs no assumption about
    underflows. *)
Theorem C119_lock_to_slot :
  forall shift txaw depth txmem txra (ti : nat -> ot_in), 0 <= txaw -> length txmem = 4%nat ->
  forall u R t0, enabled_with shift txaw depth txmem txra ti u R t0 ->
  let p := timing_of R in
  params_ok p -> 24 <= p_hres p -> p_hres p + 30 <= p_hscan p + 1 -> 1 <= p_vres p <= p_vscan p ->
  p_hres p < p_hs_start p -> p_vres p <= p_vs_start p < p_vs_end p ->
  p_hres p * p_vres p < 2 ^ txaw -> nth 9 R 0 / 2 ^ shift = p_hres p * p_vres p ->
  forall E, clocks ti ((p_hscan p + 1) * (p_vscan p + 1)) E -> (forall x, ot_ready (ti x) = true) ->
  forall Mtx junk, let st := ot_run shift txaw depth txmem txra ti in
  let o n := ot_px shift txaw Mtx (junk n) (st (E n)) (ti (E n)) in
  let dv n := ot_dv shift txaw (st (E n)) (ti (E n)) in
  let n0 := occurrences (fun x => ot_cd (ti x)) 0 t0 in
  let asked n := match ot_addr shift txaw depth (st (E n)) (ti (E n)) with Some _ => true | None => false end in
  let frame := Z.to_nat ((p_hscan p + 1) * (p_vscan p + 1)) in
  forall lat s, memory_keeps_up n0 frame lat s (fun n => ot_mem (ti (E n))) (fun n => ot_ret (ti (E n))) asked (fun n => px_de (o n) && dv n) ->
  (1 <= lat)%nat -> (lat + s + 2 <= depth)%nat ->
  forall (gain fill : nat), (0 < gain)%nat -> Z.of_nat gain <= p_hres p * p_vres p ->
  p_hres p * p_vres p + Z.of_nat (s + 2 + gain) <= (p_hscan p + 1) * (p_vscan p + 1) -> (depth <= fill * gain)%nat ->
  forall T, (n0 + fill * frame <= T)%nat ->
  let late := (n0 + underflows o dv (n0 + fill * frame))%nat in
  forall g, 1 <= g -> Z.of_nat T + 30 <= Z.of_nat late + 1 + g * ((p_vscan p + 1) * (p_hscan p + 1)) ->
  forall r f P d Lk, locks r f o P d Lk -> forall dmin, (forall k, (k < 3)%nat -> (dmin <= d k <= dmin + 70)%nat) -> (P + 41 <= 10 * T)%nat ->
  exists b e, rx_edge r b = true /\ (Lk < b <= Lk + 4 * rx_period r)%nat /\ (e <= 32)%nat /\
  let N := ((P + e + 9) / 10)%nat in let L k := (gear_bits r + d k + (10 * N - (P + e)))%nat in
  let raw n k := rx_word r (b + rx_period r * n) k in
  forall s0, rx_state_ok s0 ->
  forall k m, (1 <= k)%nat -> let F := (2 ^ k)%nat in p_hres p * p_vres p = Z.of_nat (F * m) ->
  exists D, (forall k, (k < 3)%nat -> (L k / 10 + 7 < D <= L k / 10 + 15)%nat) /\
  (forall n, Z.of_nat late + Z.of_nat D + (g + 4) * ((p_vscan p + 1) * (p_hscan p + 1)) <= Z.of_nat (N + n) ->
   let r := rx_rd (rx_run s0 raw n) in rd_h r = nth 0 R 0 mod 2 ^ 11 /\ rd_v r = nth 4 R 0 mod 2 ^ 11) /\
  forall n aw align mem ra ns (i : nat -> cap_in), let dw := 32 * Z.of_nat F in
  forall K Ed B T0 w c, capturing n F 32 aw dw align mem ra ns i (pk_stream s0 raw) K Ed B m T0 w c ->
  let vsync_of v := 1 + (v * (p_vscan p + 1) + p_vs_start p) * (p_hscan p + 1) in
  Z.of_nat (N + occurrences (fun v => cap_pix (i v)) 0 T0) = vsync_of (g + 2) + Z.of_nat (late + D) + 1 ->
  let a := word_address aw align (slot_address n F 32 aw dw align mem ra ns i w c) in
  exists z, (w < z)%nat /\ slot_status n F 32 aw dw align mem ra ns i z c = 2 /\
  forall M, let M' := after M (collect (c_write n F 32 aw dw align mem ra (dma_init ns) i) w (z - w)) in
  (forall q, (q < F * m)%nat ->
     slice (32 * Z.of_nat (F - 1 - q mod F)) 32 (M' ((a + Z.of_nat (q / F)) mod 2 ^ aw)) =
     stored (Mtx (picture_word shift txaw R (Z.of_nat q)))) /\
  (forall v, (forall j, (j < m)%nat -> v <> (a + Z.of_nat j) mod 2 ^ aw) -> M' v = M v).
Proof.
  intros shift txaw depth txmem txra ti Haw HM u R t0 Hon p ok H1 H2 H3 H4 H5 HLen Hl E HE Hready Mtx junk st o dv n0 asked frame lat s Hmem Hlat Hdepth
    gain fill G1 G2 G3 G4 T HT late g Hg HTg r f P d Lk HL dmin HDm HT1.
  assert (Hpix : 0 < p_hres p * p_vres p < 2 ^ txaw) by (split; [apply Z.mul_pos_pos; lia|exact HLen]).
  destruct (C119_never_underflows shift txaw depth txmem txra ti Haw HM u R t0 Hon ok Hpix Hl E HE Hready Mtx junk lat s Hmem Hlat Hdepth gain fill G1 G2 G3 G4) as [DV UF].
  assert (LT : late = (n0 + underflows o dv T)%nat) by (unfold late; f_equal; symmetry; exact (UF T HT)).
  pose proof (C116_lock_to_slot shift txaw depth txmem txra ti Haw HM u R t0 Hon ok H1 H2 H3 H4 H5 HLen Hl E HE Hready Mtx junk T) as X. cbv zeta in X.
  specialize (X ltac:(fold n0; lia) (fun n N _ => DV n (Nat.le_trans _ _ _ HT N)) g Hg).
  change (occurrences (fun x => ot_cd (ti x)) 0 t0 + _)%nat with (n0 + underflows o dv T)%nat in X. rewrite <- LT in X.
  exact (X HTg r f P d Lk HL dmin HDm HT1).
Qed.
Print Assumptions C119_lock_to_slot.

(** *** The hypotheses are met: the mode of OutTopProps.v, a memory that refuses a command
    once in 100 clocks and whose first word takes six clocks, and a buffer of 12 words. *)
Definition ex_sz_in (t : nat) : ot_in :=
  {| ot_sys := true; ot_cd := true;
     ot_sw := if (t <? 10)%nat then IwField t (nth t ex_ot_regs 0) else if Nat.eqb t 10 then IwEnable true else IwNone;
     ot_mem := negb (Nat.eqb (t mod 100) 50); ot_ret := (20 <=? t)%nat; ot_ready := true; ot_mp := 0; ot_mc := 5 |}.
Definition ex_sz (t : nat) : ot_st := ot_run 2 8 12 (repeat [] 4) 0 ex_sz_in t.
Example ex_sz_on : enabled_with 2 8 12 (repeat [] 4) 0 ex_sz_in 11 ex_ot_regs 14.
Proof.
  assert (AFT : forall t, (11 <= t)%nat -> ini_en (ot_ini (ex_sz t)) = true /\ ini_regs (ot_ini (ex_sz t)) = ex_ot_regs).
  { intros t T. induction T as [|t T (A & B)]; [vm_compute; auto|].
    change (ex_sz (S t)) with (ot_step 2 8 12 (ex_sz t) (ex_sz_in t)). unfold ot_step. cbv zeta. cbn [ot_ini]. unfold ini_step. cbv zeta.
    cbn [ini_en ini_regs ot_ini_in ini_sys ini_sw ex_sz_in ot_sys ot_sw].
    replace (t <? 10)%nat with false by (symmetry; apply Nat.ltb_ge; lia). replace (Nat.eqb t 10) with false by (symmetry; apply Nat.eqb_neq; lia).
    cbn [ini_write fst snd]. auto. }
  split; [|split; [|split]].
  - intros x. destruct (Nat.leb_spec 11 x) as [X|X]; [apply AFT; exact X|].
    assert (Q : forallb (fun x => negb (ini_en (ot_ini (ex_sz x)))) (seq 0 11) = true) by (vm_compute; reflexivity).
    rewrite forallb_forall in Q. apply negb_true_iff, Q, in_seq. lia.
  - intros x X. apply AFT. exact X.
  - vm_compute. discriminate.
  - intros x X. assert (Q : forallb (fun x => match ini_out (ot_ini (ex_sz x)) with None => true | _ => false end) (seq 0 14) = true) by (vm_compute; reflexivity).
    rewrite forallb_forall in Q. specialize (Q x). fold (ex_sz x). destruct (ini_out (ot_ini (ex_sz x))); [|reflexivity].
    assert (false = true) by (apply Q, in_seq; lia). discriminate.
Qed.
Lemma occ_period : forall f c a n, (c <> 0)%nat -> (forall x, f (x + c)%nat = f x) -> occurrences f a n = occurrences f (a mod c) n.
Proof.
  intros f c a n C H. assert (G : forall q x, f (x + q * c)%nat = f x).
  { induction q as [|q IH]; intros x; [rewrite Nat.add_0_r; reflexivity|]. replace (x + S q * c)%nat with (x + q * c + c)%nat by lia. rewrite H. apply IH. }
  induction n as [|n IH]; [reflexivity|]. cbn [occurrences]. rewrite IH. do 2 f_equal. rewrite (Nat.div_mod a c C) at 1.
  replace (c * (a / c) + a mod c + n)%nat with (a mod c + n + (a / c) * c)%nat by lia. rewrite G. reflexivity.
Qed.
Example ex_sz_mem : forall asked got, memory_keeps_up 14 280 6 3 (fun n => ot_mem (ex_sz_in n)) (fun n => ot_ret (ex_sz_in n)) asked got.
Proof.
  intros asked got. split.
  - intros n _. rewrite (occ_period _ 100); [|lia|intros x; cbn [ex_sz_in ot_mem]; replace (x + 100)%nat with (x + 1 * 100)%nat by lia; rewrite Nat.mod_add by lia; reflexivity].
    assert (Q : forallb (fun a => (occurrences (fun x => negb (ot_mem (ex_sz_in x))) a 280 <=? 3)%nat) (seq 0 100) = true) by (vm_compute; reflexivity).
    rewrite forallb_forall in Q. apply Nat.leb_le, Q, in_seq. pose proof (Nat.mod_upper_bound n 100). lia.
  - intros m n A B _. cbn [ex_sz_in ot_ret]. apply Nat.leb_le. lia.
Qed.
(** The buffer fills up in the first frame ([gain] = 12 and [K] = 1). *)
Example ex_sz_hyps : timing_of ex_ot_regs = ex_mode /\ params_ok ex_mode /\ nth 9 ex_ot_regs 0 / 2 ^ 2 = p_hres ex_mode * p_vres ex_mode /\
  0 < p_hres ex_mode * p_vres ex_mode < 2 ^ 8 /\ clocks ex_sz_in ((p_hscan ex_mode + 1) * (p_vscan ex_mode + 1)) (fun n => n) /\
  occurrences (fun x => ot_cd (ex_sz_in x)) 0 14 = 14%nat /\ Z.to_nat ((p_hscan ex_mode + 1) * (p_vscan ex_mode + 1)) = 280%nat /\
  (6 + 3 + 2 <= 12)%nat /\ Z.of_nat 12 <= p_hres ex_mode * p_vres ex_mode /\
  p_hres ex_mode * p_vres ex_mode + Z.of_nat (3 + 2 + 12) <= (p_hscan ex_mode + 1) * (p_vscan ex_mode + 1) /\ (12 <= 1 * 12)%nat.
Proof.
  destruct ex_mode_ok as [ok _]. split; [reflexivity|]. split; [exact ok|]. split; [reflexivity|]. split; [cbn; lia|]. split.
  - split; [intros n; split; [reflexivity|apply all_edges]|]. intros a b AB H.
    change (fun x => ot_cd (ex_sz_in x)) with (fun _ : nat => true) in H. change (fun x => ot_sys (ex_sz_in x)) with (fun _ : nat => true).
    rewrite all_edges in *. cbn in H. lia.
  - split; [reflexivity|]. split; [reflexivity|]. cbn. lia.
Qed.
