(** C90: from the registers of the video output to the pixels and on to the receiver's memory. *)
From Coq Require Import ZArith List Bool Lia Arith.
From Verif Require Import Hdl Trace CdcProofs AnalysisModel TimingModel TimingSpec TimingProofs VideoOutModel VideoOutProofs
  HdmiModel HdmiProofs LinkModel LinkProofs LinkProps InDmaModel FifoModel FifoProofs FifoProps CaptureModel CaptureProofs CaptureProps
  FrameProofs FrameProps InDmaProofs InDmaProps GenlockProps PhyModel PhyProps StartupProofs StartupProps OutTopModel OutTopProofs.
Import ListNotations.
Open Scope Z_scope.

(** The timing that the ten registers [R] ask for. *)
Definition timing_of (R : list Z) : fparam :=
  {| p_hres := nth 0 R 0; p_hs_start := nth 1 R 0; p_hs_end := nth 2 R 0; p_hscan := nth 3 R 0;
     p_vres := nth 4 R 0; p_vs_start := nth 5 R 0; p_vs_end := nth 6 R 0; p_vscan := nth 7 R 0 |}.
(** The memory word that holds pixel [q] of the picture at the byte address in the base register. *)
Definition picture_word (shift aw : Z) (R : list Z) (q : Z) : Z := (nth 8 R 0 / 2 ^ shift + q) mod 2 ^ aw.

(** The output is enabled at instant [u] and stays enabled; from [u] on the
    registers hold [R]; [t0] is the first instant with a parameter set at the
    output of the FIFO. *)
Definition enabled_with (shift aw : Z) (depth : nat) (mem : list (list Z)) (ra : Z) (i : nat -> ot_in) (u : nat) (R : list Z) (t0 : nat) : Prop :=
  let s x := ot_ini (ot_run shift aw depth mem ra i x) in
  (forall x, ini_en (s x) = (u <=? x)%nat) /\ (forall x, (u <= x)%nat -> ini_regs (s x) = R) /\
  ini_out (s t0) <> None /\ (forall x, (x < t0)%nat -> ini_out (s x) = None).

(** [E n] is the instant of edge number [n] of the output's clock; at least four
    sys edges lie among any [HV - 2] successive edges of it. *)
Definition clocks (i : nat -> ot_in) (HV : Z) (E : nat -> nat) : Prop :=
  (forall n, ot_cd (i (E n)) = true /\ occurrences (fun x => ot_cd (i x)) 0 (E n) = n) /\
  (forall a b, (a <= b)%nat -> HV <= Z.of_nat (occurrences (fun x => ot_cd (i x)) a (b - a)) + 2 ->
   (4 <= occurrences (fun x => ot_sys (i x)) a (b - a))%nat).

Section Words.
Variables (shift aw : Z) (R : list Z).
Hypothesis Haw : 0 <= aw.
Let p := timing_of R.
Hypothesis Hpix : 0 < p_hres p * p_vres p < 2 ^ aw.
Hypothesis Hl : nth 9 R 0 / 2 ^ shift = p_hres p * p_vres p.
Variable M : Z -> Z.
Let pr := regs_param shift aw R.
Let w q := M (wordaddr aw pr q).
Lemma len_pr : vp_length pr = p_hres p * p_vres p.
Proof. unfold pr, regs_param, dr_words. cbn [vp_length]. rewrite Hl. unfold trunc. apply Z.mod_small. lia. Qed.

Lemma w_word : forall f q, 0 <= q < p_hres p * p_vres p ->
  w (Z.to_nat (Z.of_nat f * (p_hres p * p_vres p) + q)) = M (picture_word shift aw R q).
Proof.
  intros f q Q. unfold w, wordaddr. rewrite len_pr. set (N := p_hres p * p_vres p) in *.
  replace (Z.of_nat (Z.to_nat (Z.of_nat f * N + q)) mod N) with q.
  - unfold pr, regs_param, dr_words, picture_word, trunc. cbn [vp_base]. f_equal.
    assert (0 < 2 ^ aw) by (apply Z.pow_pos_nonneg; lia). apply Zplus_mod_idemp_l.
  - rewrite Z2Nat.id by nia. rewrite Z.add_comm, Z.mod_add by lia. symmetry. apply Z.mod_small. exact Q.
Qed.
End Words.

Section Common.
Variables (shift aw : Z) (depth : nat) (mem : list (list Z)) (ra : Z) (i : nat -> ot_in).
Hypothesis Haw : 0 <= aw.
Hypothesis L : length mem = 4%nat.
Variables (R : list Z) (t0 : nat) (D : dr_st) (W : list Z) (X : nat) (c0 : Z).
Let st := ot_run shift aw depth mem ra i.
Hypothesis Hen : forall x, (t0 <= x)%nat -> ini_en (ot_ini (st x)) = true.
Hypothesis Hval : forall t v, (t0 <= t)%nat -> ini_out (ot_ini (st t)) = Some v -> v = R.
Hypothesis Hbase : ot_tg (st t0) = tg_init /\ ot_dr (st t0) = D /\ ot_reads (st t0) = W.
Hypothesis Hoffer : ini_out (ot_ini (st t0)) <> None.
Let p := timing_of R.
Hypothesis ok : params_ok p.
Hypothesis Hpix : 0 < p_hres p * p_vres p < 2 ^ aw.
Hypothesis Hl : nth 9 R 0 / 2 ^ shift = p_hres p * p_vres p.
Variable E : nat -> nat.
Hypothesis HE : clocks i ((p_hscan p + 1) * (p_vscan p + 1)) E.
Hypothesis Hready : forall x, ot_ready (i x) = true.
Variables (M : Z -> Z) (junk : nat -> Z).
Let o n := ot_px shift aw M (junk n) (st (E n)) (i (E n)).
Let dv n := ot_dv shift aw (st (E n)) (i (E n)).
Let n0 := occurrences (fun x => ot_cd (i x)) 0 t0.
Let pr := regs_param shift aw R.
Hypothesis Hc0 : 0 <= c0.
Hypothesis HD : reader_at aw pr D X c0.
Let V := W ++ map (fun j => trunc aw (vp_base pr + (2 ^ aw - Z.of_nat X + Z.of_nat j))) (seq 0 X).
Let w q := M (wordat aw pr V c0 q).
Let dvk k := dv (n0 + k)%nat.
Let os := uf_stream p w dvk (fun k => junk (n0 + k)%nat).

Lemma both : (forall k, o (n0 + k)%nat = os k) /\
  (forall k, underflows o dv (n0 + k) = (underflows o dv n0 + underflows os dvk k)%nat).
Proof.
  destruct HE as [HE1 HE2].
  assert (HK : forall t v, (t0 <= t)%nat -> ini_out (ot_ini (st t)) = Some v ->
    vp_t (regs_param shift aw v) = vp_t (regs_param shift aw R) /\ vp_length (regs_param shift aw v) = vp_length (regs_param shift aw R)).
  { intros t v T O. rewrite (Hval t v T O). auto. }
  assert (Hlen : 0 < vp_length (regs_param shift aw R) <= 2 ^ aw) by (rewrite (len_pr shift aw R Hpix Hl); exact (conj (proj1 Hpix) (Z.lt_le_incl _ _ (proj2 Hpix)))).
  assert (HS : forall a b, (a <= b)%nat -> (Z.to_nat ((p_hscan p + 1) * (p_vscan p + 1)) <= occurrences (fun x => ot_cd (i x)) a (b - a) + 2)%nat ->
    (4 <= occurrences (fun x => ot_sys (i x)) a (b - a))%nat) by (intros a b AB HX; apply HE2; [exact AB|lia]).
  split.
  - exact (o_uf shift aw depth mem ra i L R t0 D W Hen HK Hbase Hoffer ok E HE1 HS Hval M junk Hready Haw Hlen X c0 Hc0 HD).
  - exact (o_underflows shift aw depth mem ra i L R t0 D W Hen HK Hbase Hoffer ok E HE1 HS Hval M junk Hready Haw Hlen X c0 Hc0 HD).
Qed.

Lemma screen_from : forall n, (n0 <= n)%nat -> let held := (underflows o dv n - underflows o dv n0)%nat in
  ((n <= n0 + held)%nat -> px_de (o n) = false /\ px_hs (o n) = false /\ px_vs (o n) = false) /\
  (forall f y x, 0 <= f -> 0 <= y < p_vscan p + 1 -> 0 <= x < p_hscan p + 1 ->
   Z.of_nat n = Z.of_nat n0 + 1 + (f * (p_vscan p + 1) + y) * (p_hscan p + 1) + x + Z.of_nat held ->
   px_de (o n) = (x <? p_hres p) && (y <? p_vres p) /\
   px_hs (o n) = (p_hs_start p <=? x) && (x <? p_hs_end p) /\
   px_vs (o n) = (p_vs_start p <=? y) && (y <? p_vs_end p) /\
   (x < p_hres p -> y < p_vres p -> dv n = true ->
    let d := w (Z.to_nat ((f * p_vres p + y) * p_hres p + x)) in
    px_r (o n) = d mod 2 ^ 8 /\ px_g (o n) = d / 2 ^ 8 mod 2 ^ 8 /\ px_b (o n) = d / 2 ^ 16 mod 2 ^ 8)).
Proof.
  intros n GE held. destruct both as [B1 B2].
  set (k := (n - n0)%nat). assert (EK : n = (n0 + k)%nat) by lia.
  pose proof (C84_stretched_partial p w dvk (fun k => junk (n0 + k)%nat) ok k) as H. cbv zeta in H. fold os in H.
  pose proof (B1 k) as BO. pose proof (B2 k) as BU. rewrite <- EK in BO, BU.
  unfold dvk at 4 in H. rewrite <- EK in H. rewrite <- BO in H.
  replace (underflows os dvk k) with held in H by (unfold held; lia). destruct H as (H1 & H2 & H3). split.
  - intros Q. apply H2. lia.
  - intros f y x Hf Hy Hx EQ. destruct (H3 f y x Hf Hy Hx ltac:(lia)) as (D1 & D2 & D3 & D4).
    split; [exact D1|]. split; [exact D2|]. split; [exact D3|]. exact D4.
Qed.
End Common.

(** With the reader at rest the words are those of the picture. *)
Lemma screen : forall shift aw depth mem ra i, 0 <= aw -> length mem = 4%nat -> forall R t0,
  let st := ot_run shift aw depth mem ra i in
  (forall x, (t0 <= x)%nat -> ini_en (ot_ini (st x)) = true) ->
  (forall t v, (t0 <= t)%nat -> ini_out (ot_ini (st t)) = Some v -> v = R) ->
  ot_tg (st t0) = tg_init /\ ot_dr (st t0) = dr_init /\ ot_reads (st t0) = [] -> ini_out (ot_ini (st t0)) <> None ->
  let p := timing_of R in params_ok p -> 0 < p_hres p * p_vres p < 2 ^ aw -> nth 9 R 0 / 2 ^ shift = p_hres p * p_vres p ->
  forall E, clocks i ((p_hscan p + 1) * (p_vscan p + 1)) E -> (forall x, ot_ready (i x) = true) ->
  forall M junk, let o n := ot_px shift aw M (junk n) (st (E n)) (i (E n)) in
  let dv n := ot_dv shift aw (st (E n)) (i (E n)) in
  let n0 := occurrences (fun x => ot_cd (i x)) 0 t0 in
  forall n, (n0 <= n)%nat -> let held := (underflows o dv n - underflows o dv n0)%nat in
  ((n <= n0 + held)%nat -> px_de (o n) = false /\ px_hs (o n) = false /\ px_vs (o n) = false) /\
  (forall f y x, 0 <= f -> 0 <= y < p_vscan p + 1 -> 0 <= x < p_hscan p + 1 ->
   Z.of_nat n = Z.of_nat n0 + 1 + (f * (p_vscan p + 1) + y) * (p_hscan p + 1) + x + Z.of_nat held ->
   px_de (o n) = (x <? p_hres p) && (y <? p_vres p) /\
   px_hs (o n) = (p_hs_start p <=? x) && (x <? p_hs_end p) /\
   px_vs (o n) = (p_vs_start p <=? y) && (y <? p_vs_end p) /\
   (x < p_hres p -> y < p_vres p -> dv n = true ->
    let d := M (picture_word shift aw R (y * p_hres p + x)) in
    px_r (o n) = d mod 2 ^ 8 /\ px_g (o n) = d / 2 ^ 8 mod 2 ^ 8 /\ px_b (o n) = d / 2 ^ 16 mod 2 ^ 8)).
Proof.
  intros shift aw depth mem ra i Haw L R t0 st Hen Hval Hbase Hoffer p ok Hpix Hl E HE Hready M junk o dv n0 n GE held.
  assert (RI : reader_at aw (regs_param shift aw R) dr_init 0 0) by (apply reader_init; rewrite (len_pr shift aw R Hpix Hl); apply Hpix).
  destruct (screen_from shift aw depth mem ra i Haw L R t0 dr_init [] 0%nat 0 Hen Hval Hbase Hoffer ok Hpix Hl E HE Hready M junk ltac:(lia) RI n GE) as [H1 H2].
  split; [exact H1|]. intros f y x Hf Hy Hx EQ. destruct (H2 f y x Hf Hy Hx EQ) as (D1 & D2 & D3 & D4).
  split; [exact D1|]. split; [exact D2|]. split; [exact D3|]. intros X Y DV. specialize (D4 X Y DV). cbv zeta in D4 |- *.
  assert (WW : M (wordaddr aw (regs_param shift aw R) (Z.to_nat ((f * p_vres p + y) * p_hres p + x))) = M (picture_word shift aw R (y * p_hres p + x))).
  { replace ((f * p_vres p + y) * p_hres p + x) with (Z.of_nat (Z.to_nat f) * (p_hres p * p_vres p) + (y * p_hres p + x)) by (rewrite Z2Nat.id by lia; ring).
    apply (w_word shift aw R Haw Hpix Hl M). fold p. nia. }
  rewrite <- WW. exact D4.
Qed.

(** The first start meets the hypotheses above. *)
Lemma first_start : forall shift aw depth mem ra i u R t0, length mem = 4%nat -> enabled_with shift aw depth mem ra i u R t0 ->
  let st := ot_run shift aw depth mem ra i in
  (forall x, (t0 <= x)%nat -> ini_en (ot_ini (st x)) = true) /\
  (forall t v, (t0 <= t)%nat -> ini_out (ot_ini (st t)) = Some v -> v = R) /\
  (ot_tg (st t0) = tg_init /\ ot_dr (st t0) = dr_init /\ ot_reads (st t0) = []) /\
  ini_out (ot_ini (st t0)) <> None.
Proof.
  intros shift aw depth mem ra i u R t0 L (A & B & C & D) st.
  assert (OR : forall t v, ini_out (ot_ini (st t)) = Some v -> v = R /\ (u < t)%nat) by exact (offer_R shift aw depth mem ra i L u R A B).
  split; [|split; [|split; [|exact C]]].
  - intros x X. unfold st. rewrite A. apply Nat.leb_le. fold st in C. destruct (ini_out (ot_ini (st t0))) as [v|] eqn:O; [|congruence].
    destruct (OR t0 v O). lia.
  - intros t v T O. apply (OR t v O).
  - exact (ot_idle shift aw depth mem ra i L t0 D).
Qed.

Lemma blank : forall shift aw depth mem ra i u R t0, length mem = 4%nat -> enabled_with shift aw depth mem ra i u R t0 ->
  forall HV E, clocks i HV E -> forall M junk, let st := ot_run shift aw depth mem ra i in
  let o n := ot_px shift aw M (junk n) (st (E n)) (i (E n)) in
  let dv n := ot_dv shift aw (st (E n)) (i (E n)) in
  let n0 := occurrences (fun x => ot_cd (i x)) 0 t0 in
  (forall n, (n < n0)%nat -> px_de (o n) = false /\ px_hs (o n) = false /\ px_vs (o n) = false) /\ underflows o dv n0 = 0%nat.
Proof.
  intros shift aw depth mem ra i u R t0 L (A & B & C & D) HV E [HE1 _] M junk st o dv n0.
  assert (BL : forall n, (n < n0)%nat -> px_de (o n) = false /\ px_hs (o n) = false /\ px_vs (o n) = false)
    by exact (o_blank shift aw depth mem ra i L R t0 E HE1 M junk D).
  split; [exact BL|]. unfold underflows. apply occ_zero. intros t T. destruct (BL t ltac:(lia)) as (-> & _). reflexivity.
Qed.

(** What the PHY is given: nothing until the first parameter set arrives, and from
    the next clock on the scan that the registers ask for, with the picture at the
    base address, held only by clocks in which a pixel is due and the memory has
    not delivered it. *)
Theorem C90_registers_to_screen :
  forall shift aw depth mem ra (i : nat -> ot_in), 0 <= aw -> length mem = 4%nat ->
  forall u R t0, enabled_with shift aw depth mem ra i u R t0 ->
  let p := timing_of R in params_ok p -> 0 < p_hres p * p_vres p < 2 ^ aw -> nth 9 R 0 / 2 ^ shift = p_hres p * p_vres p ->
  forall E, clocks i ((p_hscan p + 1) * (p_vscan p + 1)) E -> (forall x, ot_ready (i x) = true) ->
  forall M junk, let st := ot_run shift aw depth mem ra i in
  let o n := ot_px shift aw M (junk n) (st (E n)) (i (E n)) in
  let dv n := ot_dv shift aw (st (E n)) (i (E n)) in
  let n0 := occurrences (fun x => ot_cd (i x)) 0 t0 in
  forall n, let held := underflows o dv n in
  ((n <= n0 + held)%nat -> px_de (o n) = false /\ px_hs (o n) = false /\ px_vs (o n) = false) /\
  (forall f y x, 0 <= f -> 0 <= y < p_vscan p + 1 -> 0 <= x < p_hscan p + 1 ->
   Z.of_nat n = Z.of_nat n0 + 1 + (f * (p_vscan p + 1) + y) * (p_hscan p + 1) + x + Z.of_nat held ->
   px_de (o n) = (x <? p_hres p) && (y <? p_vres p) /\
   px_hs (o n) = (p_hs_start p <=? x) && (x <? p_hs_end p) /\
   px_vs (o n) = (p_vs_start p <=? y) && (y <? p_vs_end p) /\
   (x < p_hres p -> y < p_vres p -> dv n = true ->
    let d := M (picture_word shift aw R (y * p_hres p + x)) in
    px_r (o n) = d mod 2 ^ 8 /\ px_g (o n) = d / 2 ^ 8 mod 2 ^ 8 /\ px_b (o n) = d / 2 ^ 16 mod 2 ^ 8)).
Proof.
  intros shift aw depth mem ra i Haw L u R t0 Hon p ok Hpix Hl E HE Hready M junk st o dv n0 n held.
  destruct (first_start shift aw depth mem ra i u R t0 L Hon) as (F1 & F2 & F3 & F4).
  pose proof (screen shift aw depth mem ra i Haw L R t0 F1 F2 F3 F4 ok Hpix Hl E HE Hready M junk n) as SC.
  destruct (blank shift aw depth mem ra i u R t0 L Hon _ E HE M junk) as [BL B0]. cbv zeta in SC.
  fold p st in SC, BL, B0. change (underflows _ _ n - underflows _ _ _)%nat with (held - underflows o dv n0)%nat in SC.
  change (underflows _ _ _) with (underflows o dv n0) in B0. rewrite B0, Nat.sub_0_r in SC.
  destruct (Nat.lt_ge_cases n n0) as [LT|GE]; [|exact (SC GE)].
  destruct (BL n LT) as (X1 & X2 & X3). split; [intros _; exact (conj X1 (conj X2 X3))|].
  intros f y x Hf Hy Hx EQ. exfalso. assert (0 <= (f * (p_vscan p + 1) + y) * (p_hscan p + 1)) by (destruct ok; nia). lia.
Qed.
Print Assumptions C90_registers_to_screen.

(** ** Through the link *)
Lemma ot_link_at : forall shift aw depth mem ra (i : nat -> ot_in), 0 <= aw -> length mem = 4%nat ->
  forall u R t0, enabled_with shift aw depth mem ra i u R t0 ->
  let p := timing_of R in link_ok p -> 0 < p_hres p * p_vres p < 2 ^ aw -> nth 9 R 0 / 2 ^ shift = p_hres p * p_vres p ->
  forall E, clocks i ((p_hscan p + 1) * (p_vscan p + 1)) E -> (forall x, ot_ready (i x) = true) ->
  forall M junk, let st := ot_run shift aw depth mem ra i in
  let o n := ot_px shift aw M (junk n) (st (E n)) (i (E n)) in
  let dv n := ot_dv shift aw (st (E n)) (i (E n)) in
  let n0 := occurrences (fun x => ot_cd (i x)) 0 t0 in
  forall T, (n0 <= T)%nat -> (forall n, (T <= n)%nat -> px_de (o n) = true -> dv n = true) ->
  let late := (n0 + underflows o dv T)%nat in
  forall g, 1 <= g -> Z.of_nat T + 30 <= Z.of_nat late + 1 + g * ((p_vscan p + 1) * (p_hscan p + 1)) ->
  forall N, (N <= T)%nat -> forall L Lmin raw s0, link_at N o L Lmin raw s0 ->
  let w q := M (wordaddr aw (regs_param shift aw R) q) in
  exists D, (forall k, (k < 3)%nat -> (L k / 10 + 7 < D <= L k / 10 + 15)%nat) /\
  forall n, (clk p (g + 1) 0 (p_hres p) <= n)%nat ->
  let q := rx_sp (rx_run s0 raw (n + late - N + D)) in
  sp_valid q = true /\ sp_de q = tx_de p n /\ sp_hsync q = tx_hs p n /\ sp_vsync q = tx_vs p n /\
  (tx_de p n = true ->
   let d := w (pixels_before p (n - 1)) in sp_r q = slice 0 8 d /\ sp_g q = slice 8 8 d /\ sp_b q = slice 16 8 d).
Proof.
  intros shift aw depth mem ra i Haw HM u R t0 Hon p lk Hpix Hl E HE Hready M junk st o dv n0 T HT0 HT late g Hg HTg N HN L Lmin raw s0 Hlink w.
  pose proof (lk_ok p lk) as ok.
  destruct (first_start shift aw depth mem ra i u R t0 HM Hon) as (F1 & F2 & F3 & F4).
  assert (RI : reader_at aw (regs_param shift aw R) dr_init 0 0) by (apply reader_init; rewrite (len_pr shift aw R Hpix Hl); apply Hpix).
  destruct (both shift aw depth mem ra i Haw HM R t0 dr_init [] 0%nat 0 F1 F2 F3 F4 ok Hpix Hl E HE Hready M junk ltac:(lia) RI) as [B1 B2].
  destruct (blank shift aw depth mem ra i u R t0 HM Hon _ E HE M junk) as [BL B0].
  set (dvk := fun k => dv (n0 + k)%nat). set (os := uf_stream p w dvk (fun k => junk (n0 + k)%nat)).
  assert (B1' : forall k, o (n0 + k)%nat = os k) by exact B1.
  assert (B2' : forall k, underflows o dv (n0 + k) = underflows os dvk k) by (intros k; etransitivity; [exact (B2 k)|]; rewrite B0; reflexivity).
  assert (BL' : forall n, (n < n0)%nat -> px_de (o n) = false /\ px_hs (o n) = false /\ px_vs (o n) = false) by exact BL.
  clear B1 B2 BL B0.
  set (pos := fun n => (n - n0 - underflows o dv n)%nat).
  assert (PK : forall k, pos (n0 + k)%nat = (k - underflows os dvk k)%nat) by (intros k; unfold pos; rewrite B2'; lia).
  assert (SHOW : forall k, px_de (os k) = tx_de p (pos (n0 + k)%nat) /\ px_hs (os k) = tx_hs p (pos (n0 + k)%nat) /\ px_vs (os k) = tx_vs p (pos (n0 + k)%nat) /\
    (dvk k = true -> let d := w (pixels_before p (pos (n0 + k)%nat - 1)) in
     px_r (os k) = slice 0 8 d /\ px_g (os k) = slice 8 8 d /\ px_b (os k) = slice 16 8 d)).
  { intros k. rewrite PK. exact (uf_shows p lk w dvk (fun k => junk (n0 + k)%nat) k). }
  assert (KT : late = (n0 + underflows os dvk (T - n0))%nat).
  { unfold late. replace T with (n0 + (T - n0))%nat at 1 by lia. rewrite B2'. reflexivity. }
  apply (link_late_at p lk w o pos T late) with (Lmin := Lmin); try assumption.
  - intros n. destruct (Nat.lt_ge_cases n n0) as [LT|GE]; [left; unfold pos; lia|].
    assert (EN : pos n = pos (n0 + (n - n0))%nat) by (f_equal; lia).
    assert (ES : pos (S n) = pos (n0 + S (n - n0))%nat) by (f_equal; lia). rewrite EN, ES, !PK.
    exact (pos_S p w dvk (fun k => junk (n0 + k)%nat) (n - n0)).
  - intros n. destruct (Nat.lt_ge_cases n n0) as [LT|GE].
    + replace (pos n) with 0%nat by (unfold pos; lia). exact (BL' n LT).
    + assert (EN : n = (n0 + (n - n0))%nat) by lia. rewrite EN, B1'. destruct (SHOW (n - n0)%nat) as (A & B & C & _). auto.
  - intros n. unfold o, ot_px, vt_px. cbv zeta. cbn [tx_px px_r px_g px_b]. repeat split; apply slice8.
  - intros n HTn. rewrite KT. assert (EN : pos n = pos (n0 + (n - n0))%nat) by (f_equal; lia). rewrite EN, PK.
    assert (HT' : forall k, (T - n0 <= k)%nat -> px_de (os k) = true -> dvk k = true).
    { intros k K D. unfold dvk. apply HT; [lia|]. rewrite B1'. exact D. }
    pose proof (pos_late p w dvk (fun k => junk (n0 + k)%nat) (T - n0) HT' (n - n0) ltac:(lia)) as PL. fold os in PL. cbv beta in PL. lia.
  - intros n HTn D. assert (EN : n = (n0 + (n - n0))%nat) by lia. rewrite EN in D |- *. rewrite B1' in D |- *.
    destruct (SHOW (n - n0)%nat) as (_ & _ & _ & A). apply A. unfold dvk. apply HT; [lia|]. rewrite B1'. exact D.
  - rewrite clk_z by (try exact lk; lia). nia.
Qed.

Lemma ot_link : forall shift aw depth mem ra (i : nat -> ot_in), 0 <= aw -> length mem = 4%nat ->
  forall u R t0, enabled_with shift aw depth mem ra i u R t0 ->
  let p := timing_of R in link_ok p -> 0 < p_hres p * p_vres p < 2 ^ aw -> nth 9 R 0 / 2 ^ shift = p_hres p * p_vres p ->
  forall E, clocks i ((p_hscan p + 1) * (p_vscan p + 1)) E -> (forall x, ot_ready (i x) = true) ->
  forall M junk, let st := ot_run shift aw depth mem ra i in
  let o n := ot_px shift aw M (junk n) (st (E n)) (i (E n)) in
  let dv n := ot_dv shift aw (st (E n)) (i (E n)) in
  let n0 := occurrences (fun x => ot_cd (i x)) 0 t0 in
  forall T, (n0 <= T)%nat -> (forall n, (T <= n)%nat -> px_de (o n) = true -> dv n = true) ->
  let late := (n0 + underflows o dv T)%nat in
  forall g, 1 <= g -> Z.of_nat T + 30 <= Z.of_nat late + 1 + g * ((p_vscan p + 1) * (p_hscan p + 1)) ->
  forall L Lmin raw s0, link o L Lmin raw s0 ->
  let w q := M (wordaddr aw (regs_param shift aw R) q) in
  exists D, (forall k, (k < 3)%nat -> (L k / 10 + 7 < D <= L k / 10 + 15)%nat) /\
  forall n, (clk p (g + 1) 0 (p_hres p) <= n)%nat ->
  let q := rx_sp (rx_run s0 raw (n + (late + D))) in
  sp_valid q = true /\ sp_de q = tx_de p n /\ sp_hsync q = tx_hs p n /\ sp_vsync q = tx_vs p n /\
  (tx_de p n = true ->
   let d := w (pixels_before p (n - 1)) in sp_r q = slice 0 8 d /\ sp_g q = slice 8 8 d /\ sp_b q = slice 16 8 d).
Proof.
  intros shift aw depth mem ra i Haw HM u R t0 Hon p lk Hpix Hl E HE Hready M junk st o dv n0 T HT0 HT late g Hg HTg L Lmin raw s0 Hlink w.
  destruct (ot_link_at shift aw depth mem ra i Haw HM u R t0 Hon lk Hpix Hl E HE Hready M junk T HT0 HT g Hg HTg 0 (Nat.le_0_l T) L Lmin raw s0
    (link_at_0 _ _ _ _ _ Hlink)) as (D & B & P).
  exists D. split; [exact B|]. intros n Hn q. specialize (P n Hn). cbv zeta in P. fold dv in P. fold o n0 in P. fold late in P.
  unfold q. replace (n + (late + D))%nat with (n + late - 0 + D)%nat by lia. exact P.
Qed.

(** From the registers and the memory of the video output to the memory of the
    receiver.  [late] is the number of clocks before the first parameter set plus
    the underflows. *)
Theorem C90_registers_to_memory :
  forall shift txaw depth txmem txra (ti : nat -> ot_in), 0 <= txaw -> length txmem = 4%nat ->
  forall u R t0, enabled_with shift txaw depth txmem txra ti u R t0 ->
  let p := timing_of R in
  params_ok p -> 24 <= p_hres p -> p_hres p + 30 <= p_hscan p + 1 -> 1 <= p_vres p <= p_vscan p ->
  p_hres p < p_hs_start p -> p_vres p <= p_vs_start p < p_vs_end p ->
  p_hres p * p_vres p < 2 ^ txaw -> nth 9 R 0 / 2 ^ shift = p_hres p * p_vres p ->
  forall E, clocks ti ((p_hscan p + 1) * (p_vscan p + 1)) E -> (forall x, ot_ready (ti x) = true) ->
  forall Mtx junk, let st := ot_run shift txaw depth txmem txra ti in
  let o n := ot_px shift txaw Mtx (junk n) (st (E n)) (ti (E n)) in
  let dv n := ot_dv shift txaw (st (E n)) (ti (E n)) in
  let n0 := occurrences (fun x => ot_cd (ti x)) 0 t0 in
  forall T, (n0 <= T)%nat -> (forall n, (T <= n)%nat -> px_de (o n) = true -> dv n = true) ->
  let late := (n0 + underflows o dv T)%nat in
  forall g, 1 <= g -> Z.of_nat T + 30 <= Z.of_nat late + 1 + g * ((p_vscan p + 1) * (p_hscan p + 1)) ->
  forall L Lmin raw s0, link o L Lmin raw s0 ->
  forall k m, (1 <= k)%nat -> let F := (2 ^ k)%nat in p_hres p * p_vres p = Z.of_nat (F * m) ->
  exists D, (forall k, (k < 3)%nat -> (L k / 10 + 7 < D <= L k / 10 + 15)%nat) /\
  (forall n, Z.of_nat late + Z.of_nat D + (g + 4) * ((p_hscan p + 1) * (p_vscan p + 1)) <= Z.of_nat n ->
   let r := rx_rd (rx_run s0 raw n) in rd_h r = nth 0 R 0 mod 2 ^ 11 /\ rd_v r = nth 4 R 0 mod 2 ^ 11) /\
  forall n aw align mem ra d0 (i : nat -> cap_in), let dw := 32 * Z.of_nat F in
  1 <= n -> Z.of_nat (length mem) = 2 ^ n -> 0 < aw ->
  (forall t, cap_pix (i t) = true -> cap_pk (i t) = pk_stream s0 raw (occurrences (fun v => cap_pix (i v)) 0 t)) ->
  forall T0 x y, (T0 <= x < y)%nat ->
  let vsync_of v := 1 + (v * (p_vscan p + 1) + p_vs_start p) * (p_hscan p + 1) in
  Z.of_nat (occurrences (fun v => cap_pix (i v)) 0 T0) = vsync_of (g + 2) + Z.of_nat (late + D) + 1 ->
  (forall t, (T0 <= t <= y)%nat -> c_lost n F 32 aw dw align mem ra d0 i t = false) ->
  (length (collect (c_kept n F 32 aw dw align mem ra d0 i) 0 T0) <= length (collect (c_taken n F 32 aw dw align mem ra d0 i) 0 x))%nat ->
  c_starts n F 32 aw dw align mem ra d0 i x = true -> Z.of_nat m = size_words aw align (cap_size (i x)) ->
  occurrences (c_accepted n F 32 aw dw align mem ra d0 i) (x + 1) (y - x - 1) = (m - 1)%nat ->
  c_accepted n F 32 aw dw align mem ra d0 i y = true ->
  let a := word_address aw align (sl_addr (dm_slot (cap_dma (cap_run n F 32 aw dw align mem ra d0 i x)))) in
  forall M, let M' := after M (collect (c_write n F 32 aw dw align mem ra d0 i) (x + 1) (y - x)) in
  (forall q, (q < F * m)%nat ->
     slice (32 * Z.of_nat (F - 1 - q mod F)) 32 (M' ((a + Z.of_nat (q / F)) mod 2 ^ aw)) =
     stored (Mtx (picture_word shift txaw R (Z.of_nat q)))) /\
  (forall z, (forall j, (j < m)%nat -> z <> (a + Z.of_nat j) mod 2 ^ aw) -> M' z = M z).
Proof.
  intros shift txaw depth txmem txra ti Haw HM u R t0 Hon p ok H1 H2 H3 H4 H5 HLen Hl E HE Hready Mtx junk st o dv n0 T HT0 HT late g Hg HTg
    L Lmin raw s0 Hlink k m Hk F HF.
  assert (lk : link_ok p) by (constructor; assumption).
  assert (Hpix : 0 < p_hres p * p_vres p < 2 ^ txaw) by nia.
  destruct (ot_link shift txaw depth txmem txra ti Haw HM u R t0 Hon lk Hpix Hl E HE Hready Mtx junk T HT0 HT g Hg HTg L Lmin raw s0 Hlink) as (D & B & P).
  cbv zeta in P. change (occurrences (fun x => ot_cd (ti x)) 0 t0 + _)%nat with late in P.
  set (w := fun q => Mtx (wordaddr txaw (regs_param shift txaw R) q)) in P. fold p in P.
  exists D. split; [exact B|]. split.
  { intros n Hn. apply (frame_resolution p lk w s0 raw (late + D) (g + 1) ltac:(lia) P). lia. }
  pose proof (frame_words p lk w s0 raw (late + D) (g + 1) ltac:(lia) P k m Hk HF) as W.
  intros n aw align mem ra d0 i dw N HMem Haw' HX T0 x y T0x vsync_of E0 NL OLD ST SZ CNT LAST a M M'.
  replace (g + 2) with (g + 1 + 1) in E0 by lia.
  destruct (frame_to_memory p lk (pk_stream s0 raw) (fun q => stored (w q)) 32 (late + D)%nat (g + 1) ltac:(lia) (fun q => stored_range (w q)) ltac:(lia)
    k m HF W n aw align mem ra d0 i N HMem Haw' HX T0 x y T0x E0 NL OLD ST SZ CNT LAST M) as (f & A1 & A2 & A3). split; [|exact A3].
  intros q Q. etransitivity; [apply (A2 q Q)|].
  rewrite <- (w_word shift txaw R Haw Hpix Hl Mtx f (Z.of_nat q)) by (change (timing_of R) with p; rewrite HF; lia).
  do 2 f_equal. change (timing_of R) with p. rewrite HF. fold F. rewrite <- Nat2Z.inj_mul, <- Nat2Z.inj_add, Nat2Z.id. reflexivity.
Qed.
Print Assumptions C90_registers_to_memory.

(** With the clocks running, the first parameter set does arrive. *)
Theorem C90_starts :
  forall shift aw depth mem ra (i : nat -> ot_in), length mem = 4%nat ->
  let s x := ot_ini (ot_run shift aw depth mem ra i x) in
  forall u v t, (u <= v <= t)%nat -> (forall x, ini_en (s x) = (u <=? x)%nat) ->
  (3 <= occurrences (fun x => ot_sys (i x)) u (v - u))%nat -> (2 <= occurrences (fun x => ot_cd (i x)) v (t - v))%nat ->
  exists t0, (u < t0 <= t)%nat /\ ini_out (s t0) <> None /\ (forall x, (x < t0)%nat -> ini_out (s x) = None).
Proof.
  intros shift aw depth mem ra i HM s u v t U EN S3 C2.
  set (ii := fun x => ot_ini_in shift aw (ot_run shift aw depth mem ra i x) (i x)).
  assert (RUN : forall x, s x = ini_run mem ra ii x) by (exact (ot_ini_run shift aw depth mem ra i)).
  assert (FIRST : forall n, (forall x, (x < n)%nat -> ini_out (s x) = None) \/
    exists t0, (t0 < n)%nat /\ ini_out (s t0) <> None /\ (forall x, (x < t0)%nat -> ini_out (s x) = None)).
  { induction n as [|n [IH|(t0 & A & B)]]; [left; intros; lia| |right; exists t0; split; [lia|exact B]].
    destruct (ini_out (s n)) eqn:Q.
    - right. exists n. split; [lia|]. split; [congruence|exact IH].
    - left. intros x X. destruct (Nat.eq_dec x n) as [->|]; [exact Q|apply IH; lia]. }
  assert (AFTER : forall x w, ini_out (s x) = Some w -> (u < x)%nat).
  { intros x w O. rewrite RUN in O. destruct (ini_offer mem ra ii HM x w O) as (A & B & _ & _).
    set (tau := instant _ _ _) in *. unfold f_wr in B. cbn [ini_fi ai_w ai_we] in B.
    apply andb_prop in B as [_ B]. apply andb_prop in B as [_ B]. unfold enabled_at in B. rewrite <- RUN, EN in B.
    apply Nat.leb_le in B. lia. }
  destruct (FIRST (S t)) as [NO|(t0 & A & B & C)].
  - exfalso. destruct (C78_supplied mem ra ii HM u v t U) as (w & O).
    + intros x X. unfold enabled_at. rewrite <- RUN, EN. apply Nat.leb_le. lia.
    + exact S3.
    + exact C2.
    + apply occ_zero. intros x X. unfold pops. rewrite <- RUN, NO by lia. apply andb_false_r.
    + rewrite <- RUN, NO in O by lia. discriminate.
  - exists t0. destruct (ini_out (s t0)) as [w|] eqn:Q; [|congruence]. pose proof (AFTER t0 w Q). split; [lia|]. split; [congruence|exact C].
Qed.
Print Assumptions C90_starts.

(** A concrete output: the ten registers are written, then the enable register;
    both clocks have an edge at every instant and the memory accepts in three
    clocks of four. *)
Definition ex_ot_regs : list Z := [24; 30; 40; 55; 2; 3; 4; 4; 400; 192].
Definition ex_ot_in (t : nat) : ot_in :=
  {| ot_sys := true; ot_cd := true;
     ot_sw := if (t <? 10)%nat then IwField t (nth t ex_ot_regs 0) else if Nat.eqb t 10 then IwEnable true else IwNone;
     ot_mem := negb (Nat.eqb ((t + 2) mod 4) 3); ot_ret := true; ot_ready := true; ot_mp := 0; ot_mc := 5 |}.
Definition ex_ot (t : nat) : ot_st := ot_run 2 8 8 (repeat [] 4) 0 ex_ot_in t.

Example ex_ot_on : enabled_with 2 8 8 (repeat [] 4) 0 ex_ot_in 11 ex_ot_regs 14.
Proof.
  assert (AFT : forall t, (11 <= t)%nat -> ini_en (ot_ini (ex_ot t)) = true /\ ini_regs (ot_ini (ex_ot t)) = ex_ot_regs).
  { intros t T. induction T as [|t T (A & B)]; [vm_compute; auto|].
    change (ex_ot (S t)) with (ot_step 2 8 8 (ex_ot t) (ex_ot_in t)). unfold ot_step. cbv zeta. cbn [ot_ini]. unfold ini_step. cbv zeta.
    cbn [ini_en ini_regs ot_ini_in ini_sys ini_sw ex_ot_in ot_sys ot_sw].
    replace (t <? 10)%nat with false by (symmetry; apply Nat.ltb_ge; lia). replace (Nat.eqb t 10) with false by (symmetry; apply Nat.eqb_neq; lia).
    cbn [ini_write fst snd]. auto. }
  split; [|split; [|split]].
  - intros x. destruct (Nat.leb_spec 11 x) as [X|X]; [apply AFT; exact X|].
    assert (Q : forallb (fun x => negb (ini_en (ot_ini (ex_ot x)))) (seq 0 11) = true) by (vm_compute; reflexivity).
    rewrite forallb_forall in Q. apply negb_true_iff, Q, in_seq. lia.
  - intros x X. apply AFT. exact X.
  - vm_compute. discriminate.
  - intros x X. assert (Q : forallb (fun x => match ini_out (ot_ini (ex_ot x)) with None => true | _ => false end) (seq 0 14) = true) by (vm_compute; reflexivity).
    rewrite forallb_forall in Q. specialize (Q x). fold (ex_ot x). destruct (ini_out (ot_ini (ex_ot x))); [|reflexivity].
    assert (false = true) by (apply Q, in_seq; lia). discriminate.
Qed.
Lemma all_edges : forall a n, occurrences (fun _ => true) a n = n.
Proof. intros a n. induction n as [|n IH]; [reflexivity|]. cbn [occurrences]. rewrite IH. lia. Qed.
Example ex_ot_clocks : clocks ex_ot_in ((p_hscan (timing_of ex_ot_regs) + 1) * (p_vscan (timing_of ex_ot_regs) + 1)) (fun n => n).
Proof.
  split; [intros n; split; [reflexivity|apply all_edges]|]. intros a b AB H.
  change (fun x => ot_cd (ex_ot_in x)) with (fun _ : nat => true) in H. change (fun x => ot_sys (ex_ot_in x)) with (fun _ : nat => true).
  rewrite all_edges in *. cbn in H. lia.
Qed.
(** The mode, the length register, and the transmitter's hypotheses of
    [C90_registers_to_memory]: no underflow from clock 47 on, nine before. *)
Example ex_ot_hyps : forall M junk, timing_of ex_ot_regs = ex_mode /\ nth 9 ex_ot_regs 0 / 2 ^ 2 = p_hres ex_mode * p_vres ex_mode /\
  p_hres ex_mode * p_vres ex_mode < 2 ^ 8 /\
  let o n := ot_px 2 8 M (junk n) (ex_ot n) (ex_ot_in n) in
  let dv n := ot_dv 2 8 (ex_ot n) (ex_ot_in n) in
  (forall n, (47 <= n)%nat -> px_de (o n) = true -> dv n = true) /\ underflows o dv 47 = 9%nat /\
  Z.of_nat 47 + 30 <= Z.of_nat (14 + 9) + 1 + 1 * ((p_vscan ex_mode + 1) * (p_hscan ex_mode + 1)).
Proof.
  intros M junk. split; [reflexivity|]. split; [reflexivity|]. split; [reflexivity|]. intros o dv.
  assert (CORE : forall k, o (14 + k)%nat = vt_px M (junk (14 + k)%nat) (ex_vt k) (ex_ti k) /\ dv (14 + k)%nat = vi_dv (vt_vi (ex_vt k) (ex_ti k))).
  { intros k. destruct (first_start 2 8 8 (repeat [] 4) 0 ex_ot_in 11 ex_ot_regs 14 eq_refl ex_ot_on) as (A & B & C & D). destruct ex_ot_clocks as [HE1 HE2]. destruct ex_mode_ok as [ok _].
    assert (CIN : forall x, ot_core_in 2 8 ex_ot_in ex_ot_regs 14 (fun n => n) x = ex_ti x).
    { intros x. unfold ot_core_in, ex_ti. cbv zeta. change (regs_param 2 8 ex_ot_regs) with ex_pr. cbn [ex_ot_in ot_mem ot_ret ot_ready].
      change (fun t : nat => ot_cd (ex_ot_in t)) with (fun _ : nat => true). rewrite all_edges.
      replace (14 + x + 2)%nat with (x + 4 * 4)%nat by lia. rewrite Nat.mod_add by lia. reflexivity. }
    assert (HS : forall a b, (a <= b)%nat -> (Z.to_nat ((p_hscan ex_mode + 1) * (p_vscan ex_mode + 1)) <= occurrences (fun t => ot_cd (ex_ot_in t)) a (b - a) + 2)%nat ->
      (4 <= occurrences (fun x => ot_sys (ex_ot_in x)) a (b - a))%nat).
    { intros a b AB X. apply HE2; [exact AB|]. change (timing_of ex_ot_regs) with ex_mode. lia. }
    pose proof (o_core 2 8 8 (repeat [] 4) 0 ex_ot_in eq_refl ex_ot_regs 14 dr_init [] A
      ltac:(intros t v T O; rewrite (B t v T O); auto) C D ok (fun n => n) HE1 HS B M junk k) as OC.
    rewrite CIN in OC.
    assert (RUN : at_ (vt_step 8 8) {| vt_tg := tg_init; vt_dr := dr_init; vt_q := [regs_param 2 8 ex_ot_regs]; vt_reads := [] |} (ot_core_in 2 8 ex_ot_in ex_ot_regs 14 (fun n => n)) k = ex_vt k).
    { apply at_ext. exact CIN. }
    rewrite RUN in OC. change (fun t : nat => ot_cd (ex_ot_in t)) with (fun _ : nat => true) in OC. rewrite all_edges in OC. exact OC. }
  destruct (ex_startup M (fun k => junk (14 + k)%nat)) as (_ & S2 & S3 & _). split; [|split; [|cbn; lia]].
  - intros n N DE. replace n with (14 + (n - 14))%nat in DE |- * by lia. destruct (CORE (n - 14)%nat) as [C1 C2]. rewrite C2.
    apply S2; [lia|]. rewrite <- C1. exact DE.
  - unfold underflows. rewrite (occurrences_ext _ (fun m => tg_de (vt_valid (ot_vt 2 8 (ex_ot m))) (ot_tg (ex_ot m)) && negb (dv m))) by reflexivity.
    vm_compute. reflexivity.
Qed.
