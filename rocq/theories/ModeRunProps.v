(** C127: concrete changes of mode, and two that displace the picture for ever. *)
From Coq Require Import ZArith List Bool Lia Arith.
From Verif Require Import Hdl Trace CdcProofs TimingModel TimingSpec TimingProofs VideoOutModel VideoOutProofs
  HdmiModel LinkModel LinkProps FifoModel FifoProofs FifoProps PhyModel PhyProps OutTopModel OutTopProofs OutTopProps OutSwapProps ModeProofs FairProps ModeProps.
Import ListNotations.
Open Scope Z_scope.

(** Concrete changes of mode.  Software writes the registers of the set [ex_md_1] one after the
    other, enables the output, and from instant [W] on writes the registers of [Rb], one per clock;
    both clocks have an edge at every instant and the memory always accepts. *)
Definition ex_md_1 : list Z := [10; 11; 13; 15; 2; 2; 3; 3; 400; 80].
Definition ex_md_2 : list Z := [8; 9; 11; 13; 2; 2; 3; 3; 800; 64].
Definition ex_md_3 : list Z := [3; 4; 5; 6; 1; 1; 2; 2; 800; 12].
Definition ex_md_in (Rb : list Z) (W t : nat) : ot_in :=
  {| ot_sys := true; ot_cd := true;
     ot_sw := if (t <? 10)%nat then IwField t (nth t ex_md_1 0) else if Nat.eqb t 10 then IwEnable true
              else if (W <=? t)%nat && (t <? W + 10)%nat then IwField (t - W) (nth (t - W) Rb 0) else IwNone;
     ot_mem := true; ot_ret := true; ot_ready := true; ot_mp := 0; ot_mc := 0 |}.
Definition ex_md (Rb : list Z) (W t : nat) : ot_st := ot_run 2 8 4 (repeat [] 4) 0 (ex_md_in Rb W) t.

Lemma ex_md_keep : forall Rb W t, (11 <= t)%nat ->
  ini_en (ot_ini (ex_md Rb W (S t))) = ini_en (ot_ini (ex_md Rb W t)) /\
  ((t < W)%nat \/ (W + 10 <= t)%nat -> ini_regs (ot_ini (ex_md Rb W (S t))) = ini_regs (ot_ini (ex_md Rb W t))).
Proof.
  intros Rb W t T. change (ex_md Rb W (S t)) with (ot_step 2 8 4 (ex_md Rb W t) (ex_md_in Rb W t)). unfold ot_step. cbv zeta. cbn [ot_ini]. unfold ini_step. cbv zeta.
  cbn [ini_en ini_regs ot_ini_in ini_sys ini_sw ex_md_in ot_sys ot_sw].
  replace (t <? 10)%nat with false by (symmetry; apply Nat.ltb_ge; lia). replace (Nat.eqb t 10) with false by (symmetry; apply Nat.eqb_neq; lia).
  destruct (Nat.leb_spec W t), (Nat.ltb_spec t (W + 10)); cbn [andb ini_write fst snd]; split; try reflexivity; intros; try reflexivity; lia.
Qed.
Lemma ex_md_on : forall Rb W, (11 <= W)%nat ->
  forallb (fun x => negb (ini_en (ot_ini (ex_md Rb W x)))) (seq 0 11) = true ->
  forallb (fun x => match ini_out (ot_ini (ex_md Rb W x)) with None => true | _ => false end) (seq 0 14) = true ->
  ini_en (ot_ini (ex_md Rb W 11)) = true -> ini_regs (ot_ini (ex_md Rb W 11)) = ex_md_1 -> ini_out (ot_ini (ex_md Rb W 14)) <> None ->
  ini_regs (ot_ini (ex_md Rb W (W + 10))) = Rb ->
  enabled_from 2 8 4 (repeat [] 4) 0 (ex_md_in Rb W) 11 14 /\
  (forall x, (11 <= x <= W)%nat -> ini_regs (ot_ini (ex_md Rb W x)) = ex_md_1) /\
  (forall x, (W + 10 <= x)%nat -> ini_regs (ot_ini (ex_md Rb W x)) = Rb).
Proof.
  intros Rb W HW Q1 Q2 E11 R11 O14 RW. unfold enabled_from. cbv zeta.
  assert (RE : forall x, ot_run 2 8 4 (repeat [] 4) 0 (ex_md_in Rb W) x = ex_md Rb W x) by (intros x; unfold ex_md; reflexivity).
  split; [split; [|split; [rewrite RE; exact O14|]]|split].
  - intros x. rewrite RE. destruct (Nat.leb_spec 11 x) as [X|X].
    + induction X as [|x X IH]; [exact E11|]. rewrite (proj1 (ex_md_keep Rb W x X)). exact IH.
    + rewrite forallb_forall in Q1. apply negb_true_iff, Q1, in_seq. lia.
  - intros x X. rewrite forallb_forall in Q2. specialize (Q2 x). rewrite RE. destruct (ini_out (ot_ini (ex_md Rb W x))); [|reflexivity].
    assert (false = true) by (apply Q2, in_seq; lia). discriminate.
  - intros x [X1 X2]. induction X1 as [|x X1 IH]; [exact R11|]. rewrite (proj2 (ex_md_keep Rb W x X1)) by lia. apply IH. lia.
  - intros x X. induction X as [|x X IH]; [exact RW|]. rewrite (proj2 (ex_md_keep Rb W x ltac:(lia))) by lia. exact IH.
Qed.
Lemma ex_md_clocks : forall Rb W, clocks (ex_md_in Rb W) 21 (fun n => n).
Proof.
  intros Rb W. split; [intros n; split; [reflexivity|apply all_edges]|]. intros a b AB H.
  change (fun x => ot_cd (ex_md_in Rb W x)) with (fun _ : nat => true) in H. change (fun x => ot_sys (ex_md_in Rb W x)) with (fun _ : nat => true).
  rewrite all_edges in *. lia.
Qed.
Lemma ex_md_whole : whole_set 2 8 4 ex_md_1 /\ whole_set 2 8 4 ex_md_2 /\ whole_set 2 8 2 ex_md_3.
Proof. repeat split; cbn; lia. Qed.

(** A check of all states from [a] on that holds for one period holds for ever. *)
Lemma ex_md_every : forall Rb W (q : ot_st -> nat -> bool) a P, (11 <= a)%nat -> (W + 10 <= a)%nat -> (0 < P)%nat ->
  ex_md Rb W (a + P) = ex_md Rb W a -> (forall s t, (a <= t)%nat -> q s (t + P)%nat = q s t) ->
  (forall d, (d < P)%nat -> q (ex_md Rb W (a + d)) (a + d)%nat = true) -> forall t, (a <= t)%nat -> q (ex_md Rb W t) t = true.
Proof.
  intros Rb W q a P A AW HP H Q B.
  assert (PER : forall t, (a <= t)%nat -> ex_md Rb W (t + P) = ex_md Rb W t).
  { apply (periodic _ _ (ot_step 2 8 4) (ot_init (repeat [] 4) 0) (ex_md_in Rb W) a P H). intros t T. unfold ex_md_in.
    replace (t <? 10)%nat with false by (symmetry; apply Nat.ltb_ge; lia). replace (t + P <? 10)%nat with false by (symmetry; apply Nat.ltb_ge; lia).
    replace (Nat.eqb t 10) with false by (symmetry; apply Nat.eqb_neq; lia). replace (Nat.eqb (t + P) 10) with false by (symmetry; apply Nat.eqb_neq; lia).
    replace (t <? W + 10)%nat with false by (symmetry; apply Nat.ltb_ge; lia). replace (t + P <? W + 10)%nat with false by (symmetry; apply Nat.ltb_ge; lia).
    rewrite !andb_false_r. reflexivity. }
  intros t. induction t as [t IH] using lt_wf_ind. intros T. destruct (Nat.lt_ge_cases t (a + P)) as [LT|GE].
  - replace t with (a + (t - a))%nat by lia. apply B. lia.
  - replace t with ((t - P) + P)%nat by lia. rewrite PER, Q by lia. apply IH; lia.
Qed.

Lemma ex_md_ever : forall Rb W (q : ot_st -> nat -> bool) a P, (11 <= a)%nat -> (W + 10 <= a)%nat -> (0 < P)%nat ->
  ex_md Rb W (a + P) = ex_md Rb W a -> (forall s t, (a <= t)%nat -> q s (t + P)%nat = q s t) ->
  scan (ot_step 2 8 4) (ex_md_in Rb W) q (ex_md Rb W a) a P = true -> forall t, (a <= t)%nat -> q (ex_md Rb W t) t = true.
Proof.
  intros Rb W q a P A AW HP H Q S. apply (ex_md_every Rb W q a P A AW HP H Q).
  exact (scan_sound _ _ (ot_step 2 8 4) (ex_md_in Rb W) q (ot_init (repeat [] 4) 0) P a S).
Qed.
(** Only the two sets, and no underflow: checks on one state. *)
Definition ex_md_is (Rb : list Z) (s : ot_st) (_ : nat) : bool :=
  match ini_out (ot_ini s) with None => true | Some v => if list_eq_dec Z.eq_dec v ex_md_1 then true else if list_eq_dec Z.eq_dec v Rb then true else false end.
Definition ex_md_flow (s : ot_st) (_ : nat) : bool :=
  negb (px_de (ot_px 2 8 (fun a => a) 0 s (ex_md_in ex_md_2 290 1000)) && negb (ot_dv 2 8 s (ex_md_in ex_md_2 290 1000))).
Lemma ex_md_two : forall Rb W a P, (11 <= a)%nat -> (W + 10 <= a)%nat -> (0 < P)%nat -> ex_md Rb W (a + P) = ex_md Rb W a ->
  scan (ot_step 2 8 4) (ex_md_in Rb W) (ex_md_is Rb) (ex_md Rb W 0) 0 (a + P) = true ->
  forall t v, ini_out (ot_ini (ex_md Rb W t)) = Some v -> v = ex_md_1 \/ v = Rb.
Proof.
  intros Rb W a P A AW HP PER SC t v O.
  assert (B : forall d, (d < a + P)%nat -> ex_md_is Rb (ex_md Rb W d) d = true) by exact (scan_sound _ _ (ot_step 2 8 4) (ex_md_in Rb W) (ex_md_is Rb) (ot_init (repeat [] 4) 0) (a + P) 0 SC).
  assert (Q : ex_md_is Rb (ex_md Rb W t) t = true).
  { destruct (Nat.lt_ge_cases t a) as [LT|GE]; [apply B; lia|].
    apply (ex_md_every Rb W (ex_md_is Rb) a P A AW HP PER); [reflexivity| |exact GE]. intros d D. apply B. lia. }
  unfold ex_md_is in Q. rewrite O in Q. destruct (list_eq_dec Z.eq_dec v ex_md_1); [auto|]. destruct (list_eq_dec Z.eq_dec v Rb); [auto|discriminate].
Qed.

(** Point [k] of a frame of the set [R] from instant [n2] on, all of whose pixels are [d] places off. *)
Definition ex_md_off (R : list Z) (n2 : nat) (d : Z) (s : ot_st) (t : nat) : bool :=
  let p := timing_of R in let k := (Z.of_nat t - Z.of_nat n2) mod frame_len R in
  let y := k / (p_hscan p + 1) in let x := k mod (p_hscan p + 1) in
  let o := ot_px 2 8 (fun a => a) 0 s (ex_md_in R 11 0) in
  let N := p_hres p * p_vres p in
  eqb (px_de o) ((x <? p_hres p) && (y <? p_vres p)) &&
  eqb (px_hs o) ((p_hs_start p <=? x) && (x <? p_hs_end p)) && eqb (px_vs o) ((p_vs_start p <=? y) && (y <? p_vs_end p)) &&
  (negb (px_de o) || (ot_dv 2 8 s (ex_md_in R 11 0) && (px_r o =? picture_word 2 8 R ((y * p_hres p + x + d) mod N)))).
Lemma ex_md_off_spec : forall R n2 d s t i j, ot_ret i = true -> ot_ready i = true -> params_ok (timing_of R) -> (n2 <= t)%nat -> ex_md_off R n2 d s t = true ->
  let p := timing_of R in let o := ot_px 2 8 (fun a => a) j s i in
  forall f y x, 0 <= f -> 0 <= y < p_vscan p + 1 -> 0 <= x < p_hscan p + 1 ->
  Z.of_nat t - Z.of_nat n2 = (f * (p_vscan p + 1) + y) * (p_hscan p + 1) + x ->
  px_de o = (x <? p_hres p) && (y <? p_vres p) /\ px_hs o = (p_hs_start p <=? x) && (x <? p_hs_end p) /\ px_vs o = (p_vs_start p <=? y) && (y <? p_vs_end p) /\
  (x < p_hres p -> y < p_vres p -> ot_dv 2 8 s i = true /\ px_r o = picture_word 2 8 R ((y * p_hres p + x + d) mod (p_hres p * p_vres p))).
Proof.
  intros R n2 d s t i j Hret Hrdy ok T Q p o f y x Hf Hy Hx EQ. unfold ex_md_off in Q. cbv zeta in Q. fold p in Q. rewrite EQ in Q.
  assert (K : ((f * (p_vscan p + 1) + y) * (p_hscan p + 1) + x) mod frame_len R = y * (p_hscan p + 1) + x).
  { replace ((f * (p_vscan p + 1) + y) * (p_hscan p + 1) + x) with (y * (p_hscan p + 1) + x + f * frame_len R) by (unfold frame_len; fold p; ring).
    rewrite Z.mod_add by (unfold frame_len; fold p; nia). apply Z.mod_small. unfold frame_len. fold p. nia. }
  rewrite K in Q. replace ((y * (p_hscan p + 1) + x) / (p_hscan p + 1)) with y in Q by (apply (Z.div_unique _ _ _ x); lia).
  replace ((y * (p_hscan p + 1) + x) mod (p_hscan p + 1)) with x in Q by (apply (Z.mod_unique _ _ y); lia).
  set (o' := ot_px 2 8 (fun a => a) 0 s (ex_md_in R 11 0)) in *.
  assert (OO : px_de o = px_de o' /\ px_hs o = px_hs o' /\ px_vs o = px_vs o').
  { unfold o, o', ot_px, vt_px. cbv zeta. cbn [tx_px px_de px_hs px_vs]. auto. }
  assert (DD : ot_dv 2 8 s i = ot_dv 2 8 s (ex_md_in R 11 0)) by (unfold ot_dv; cbn [vt_vi vi_dv ot_ti ti_ret]; rewrite Hret; reflexivity).
  assert (RR : ot_dv 2 8 s i = true -> px_r o = px_r o').
  { intros DV. pose proof DV as DV2. rewrite DD in DV2. unfold o, o', ot_px, vt_px. cbv zeta. cbn [tx_px px_r]. unfold ot_dv in DV, DV2. rewrite DV, DV2. reflexivity. }
  destruct OO as (-> & -> & ->). apply andb_true_iff in Q as [Q Q4]. apply andb_true_iff in Q as [Q Q3]. apply andb_true_iff in Q as [Q1 Q2].
  apply eqb_prop in Q1. apply eqb_prop in Q2. apply eqb_prop in Q3. split; [exact Q1|]. split; [exact Q2|]. split; [exact Q3|].
  intros Lx Ly. rewrite Q1 in Q4. replace (x <? p_hres p) with true in Q4 by (symmetry; apply Z.ltb_lt; lia). replace (y <? p_vres p) with true in Q4 by (symmetry; apply Z.ltb_lt; lia).
  cbn [negb andb orb] in Q4. apply andb_true_iff in Q4 as [Q4 Q5]. rewrite <- DD in Q4. split; [exact Q4|]. rewrite (RR Q4). apply Z.eqb_eq in Q5. exact Q5.
Qed.
Lemma ex_md_off_P : forall R n2 d s t P, (n2 <= t)%nat -> params_ok (timing_of R) -> Z.of_nat P mod frame_len R = 0 -> ex_md_off R n2 d s (t + P) = ex_md_off R n2 d s t.
Proof.
  intros R n2 d s t P T ok HP. assert (F : 0 < frame_len R) by (unfold frame_len; destruct ok; nia).
  assert (K : (Z.of_nat (t + P) - Z.of_nat n2) mod frame_len R = (Z.of_nat t - Z.of_nat n2) mod frame_len R).
  { replace (Z.of_nat (t + P) - Z.of_nat n2) with (Z.of_nat t - Z.of_nat n2 + Z.of_nat P) by lia. rewrite <- Zplus_mod_idemp_r, HP, Z.add_0_r. reflexivity. }
  unfold ex_md_off. rewrite K. reflexivity.
Qed.

(** From transfer [n2] on the output runs through frames of the mode in [R], but every pixel is that
    of the place [d] further on, and never the one that belongs there. *)
Definition displaced (shift aw : Z) (M : Z -> Z) (R : list Z) (d : Z) (o : nat -> px) (dv : nat -> bool) (n2 : nat) : Prop :=
  let p := timing_of R in let N := p_hres p * p_vres p in
  forall n, (n2 <= n)%nat -> forall f y x, 0 <= f -> 0 <= y < p_vscan p + 1 -> 0 <= x < p_hscan p + 1 ->
  Z.of_nat n - Z.of_nat n2 = (f * (p_vscan p + 1) + y) * (p_hscan p + 1) + x ->
  px_de (o n) = (x <? p_hres p) && (y <? p_vres p) /\
  px_hs (o n) = (p_hs_start p <=? x) && (x <? p_hs_end p) /\
  px_vs (o n) = (p_vs_start p <=? y) && (y <? p_vs_end p) /\
  (x < p_hres p -> y < p_vres p -> dv n = true /\
   px_r (o n) = M (picture_word shift aw R ((y * p_hres p + x + d) mod N)) /\ px_r (o n) <> M (picture_word shift aw R (y * p_hres p + x))).

Lemma ex_md_displaced : forall Rb W n2 P d, (11 <= n2)%nat -> (W + 10 <= n2)%nat -> (0 < P)%nat -> params_ok (timing_of Rb) -> Z.of_nat P mod frame_len Rb = 0 ->
  ex_md Rb W (n2 + P) = ex_md Rb W n2 -> scan (ot_step 2 8 4) (ex_md_in Rb W) (ex_md_off Rb n2 d) (ex_md Rb W n2) n2 P = true ->
  let N := p_hres (timing_of Rb) * p_vres (timing_of Rb) in
  forallb (fun q => negb (picture_word 2 8 Rb ((Z.of_nat q + d) mod N) =? picture_word 2 8 Rb (Z.of_nat q))) (seq 0 (Z.to_nat N)) = true ->
  displaced 2 8 (fun a => a) Rb d (fun n => ot_px 2 8 (fun a => a) 0 (ex_md Rb W n) (ex_md_in Rb W n)) (fun n => ot_dv 2 8 (ex_md Rb W n) (ex_md_in Rb W n)) n2.
Proof.
  intros Rb W n2 P d A AW HP ok FP PER SC N DIFF n Hn f y x Hf Hy Hx EQ.
  assert (Q : ex_md_off Rb n2 d (ex_md Rb W n) n = true).
  { apply (ex_md_ever Rb W (ex_md_off Rb n2 d) n2 P A AW HP PER); [|exact SC|exact Hn]. intros s t T. apply ex_md_off_P; assumption. }
  destruct (ex_md_off_spec Rb n2 d (ex_md Rb W n) n (ex_md_in Rb W n) 0 eq_refl eq_refl ok Hn Q f y x Hf Hy Hx EQ) as (D & H & V & PX).
  split; [exact D|]. split; [exact H|]. split; [exact V|]. intros Lx Ly. destruct (PX Lx Ly) as [DV PR]. split; [exact DV|]. split; [exact PR|].
  rewrite PR. rewrite forallb_forall in DIFF. assert (B : 0 <= y * p_hres (timing_of Rb) + x < N) by (unfold N; nia).
  specialize (DIFF (Z.to_nat (y * p_hres (timing_of Rb) + x)) ltac:(apply in_seq; lia)). rewrite Z2Nat.id in DIFF by lia.
  apply negb_true_iff, Z.eqb_neq in DIFF. exact DIFF.
Qed.

(** Software writes the ten registers one by one, so one of the sets the FIFO takes may be half old and
    half new.  The registers hold a whole set before and a whole set ever after; the mode settles, and
    the picture is displaced for ever. *)
Theorem C127_half_written_refuted :
  exists shift aw depth mem ra (i : nat -> ot_in) u t0 E R1 R2 w0 w d n2,
  0 <= aw /\ length mem = 4%nat /\ enabled_from shift aw depth mem ra i u t0 /\
  whole_set shift aw depth R1 /\ whole_set shift aw depth R2 /\
  clocks i (Z.min (frame_len R1) (frame_len R2)) E /\ (forall x, ot_ready (i x) = true) /\
  let st := ot_run shift aw depth mem ra i in
  (u < w0 < w)%nat /\ (forall x, (u <= x <= w0)%nat -> ini_regs (ot_ini (st x)) = R1) /\ (forall x, (w <= x)%nat -> ini_regs (ot_ini (st x)) = R2) /\
  (forall x, (u <= x < w0)%nat \/ (w <= x)%nat -> ot_sw (i x) = IwNone) /\
  let o n := ot_px shift aw (fun a => a) 0 (st (E n)) (i (E n)) in
  let dv n := ot_dv shift aw (st (E n)) (i (E n)) in
  displaced shift aw (fun a => a) R2 d o dv n2.
Proof.
  exists 2, 8, 4%nat, (repeat [] 4), 0, (ex_md_in ex_md_2 269), 11%nat, 14%nat, (fun n => n), ex_md_1, ex_md_2, 269%nat, 279%nat, 12, 1024%nat. cbv zeta.
  assert (RE : forall x, ot_run 2 8 4 (repeat [] 4) 0 (ex_md_in ex_md_2 269) x = ex_md ex_md_2 269 x) by (intros x; unfold ex_md; reflexivity).
  destruct (ex_md_on ex_md_2 269) as (ON & RB & RA); [lia|vm_compute; reflexivity|vm_compute; reflexivity|vm_compute; reflexivity|vm_compute; reflexivity|vm_compute; discriminate|vm_compute; reflexivity|].
  split; [lia|]. split; [reflexivity|]. split; [exact ON|]. split; [exact (proj1 ex_md_whole)|]. split; [exact (proj1 (proj2 ex_md_whole))|].
  split; [|split; [reflexivity|split; [lia|split; [intros x X; rewrite RE; exact (RB x X)|split; [intros x X; rewrite RE; exact (RA x X)|split]]]]].
  - destruct (ex_md_clocks ex_md_2 269) as [C1 C2]. split; [exact C1|]. intros a b AB H. apply C2; [exact AB|]. replace (Z.min (frame_len ex_md_1) (frame_len ex_md_2)) with 56 in H by reflexivity. lia.
  - intros x X. unfold ex_md_in. cbn [ot_sw]. replace (x <? 10)%nat with false by (symmetry; apply Nat.ltb_ge; lia). replace (Nat.eqb x 10) with false by (symmetry; apply Nat.eqb_neq; lia).
    destruct (Nat.leb_spec 269 x), (Nat.ltb_spec x (269 + 10)); cbn [andb]; try reflexivity; lia.
  - unfold ot_run. change (at_ (ot_step 2 8 4) (ot_init (repeat [] 4) 0) (ex_md_in ex_md_2 269)) with (ex_md ex_md_2 269).
    apply (ex_md_displaced ex_md_2 269 1024 448 12); [lia|lia|lia|exact (ws_ok _ _ _ _ (proj1 (proj2 ex_md_whole)))|reflexivity|vm_compute; reflexivity|vm_compute; reflexivity|vm_compute; reflexivity].
Qed.
Print Assumptions C127_half_written_refuted.

(** A picture that fits into the buffer of the reader: every set ever offered is whole, and the picture
    is displaced for ever all the same. *)
Theorem C127_small_picture_refuted :
  exists shift aw depth mem ra (i : nat -> ot_in) u t0 E R1 R2 w0 w d n2,
  0 <= aw /\ length mem = 4%nat /\ enabled_from shift aw depth mem ra i u t0 /\
  whole_set shift aw depth R1 /\ whole_set shift aw 0 R2 /\
  clocks i (Z.min (frame_len R1) (frame_len R2)) E /\ (forall x, ot_ready (i x) = true) /\
  let st := ot_run shift aw depth mem ra i in
  (u < w0 < w)%nat /\ (forall x, (u <= x <= w0)%nat -> ini_regs (ot_ini (st x)) = R1) /\ (forall x, (w <= x)%nat -> ini_regs (ot_ini (st x)) = R2) /\
  (forall t v, ini_out (ot_ini (st t)) = Some v -> v = R1 \/ v = R2) /\
  let o n := ot_px shift aw (fun a => a) 0 (st (E n)) (i (E n)) in
  let dv n := ot_dv shift aw (st (E n)) (i (E n)) in
  displaced shift aw (fun a => a) R2 d o dv n2.
Proof.
  exists 2, 8, 4%nat, (repeat [] 4), 0, (ex_md_in ex_md_3 290), 11%nat, 14%nat, (fun n => n), ex_md_1, ex_md_3, 290%nat, 300%nat, 2, 3006%nat. cbv zeta.
  assert (RE : forall x, ot_run 2 8 4 (repeat [] 4) 0 (ex_md_in ex_md_3 290) x = ex_md ex_md_3 290 x) by (intros x; unfold ex_md; reflexivity).
  destruct (ex_md_on ex_md_3 290) as (ON & RB & RA); [lia|vm_compute; reflexivity|vm_compute; reflexivity|vm_compute; reflexivity|vm_compute; reflexivity|vm_compute; discriminate|vm_compute; reflexivity|].
  split; [lia|]. split; [reflexivity|]. split; [exact ON|]. split; [exact (proj1 ex_md_whole)|]. split; [destruct (proj2 (proj2 ex_md_whole)); split; try assumption; cbn; lia|].
  split; [|split; [reflexivity|split; [lia|split; [intros x X; rewrite RE; exact (RB x X)|split; [intros x X; rewrite RE; exact (RA x X)|split]]]]].
  - destruct (ex_md_clocks ex_md_3 290) as [C1 C2]. split; [exact C1|]. intros a b AB H. apply C2; [exact AB|]. replace (Z.min (frame_len ex_md_1) (frame_len ex_md_3)) with 21 in H by reflexivity. lia.
  - intros t v. rewrite RE. apply (ex_md_two ex_md_3 290 3006 168); [lia|lia|lia|vm_compute; reflexivity|vm_compute; reflexivity].
  - unfold ot_run. change (at_ (ot_step 2 8 4) (ot_init (repeat [] 4) 0) (ex_md_in ex_md_3 290)) with (ex_md ex_md_3 290).
    apply (ex_md_displaced ex_md_3 290 3006 168 2); [lia|lia|lia|exact (ws_ok _ _ _ _ (proj2 (proj2 ex_md_whole)))|reflexivity|vm_compute; reflexivity|vm_compute; reflexivity|vm_compute; reflexivity].
Qed.
Print Assumptions C127_small_picture_refuted.

(** A clean change: nothing is taken while the registers are written.  All hypotheses of both theorems
    are met, also that more than five frames pass after the change. *)
Example C127_case :
  let i := ex_md_in ex_md_2 290 in let st := ot_run 2 8 4 (repeat [] 4) 0 i in
  enabled_from 2 8 4 (repeat [] 4) 0 i 11 14 /\ clocks i 56 (fun n => n) /\ (forall x, ot_ready (i x) = true) /\
  (forall t v, ini_out (ot_ini (st t)) = Some v -> whole_set 2 8 4 v /\ 56 <= frame_len v <= 64) /\
  (exists t t', ini_out (ot_ini (st t)) = Some ex_md_1 /\ ini_out (ot_ini (st t')) = Some ex_md_2) /\
  (forall x, (300 <= x)%nat -> ini_regs (ot_ini (st x)) = ex_md_2) /\
  let o n := ot_px 2 8 (fun a => a) 0 (st n) (i n) in let dv n := ot_dv 2 8 (st n) (i n) in
  5 * 64 < Z.of_nat 1024 - Z.of_nat 400 - (Z.of_nat (underflows o dv 1024) - Z.of_nat (underflows o dv 400)).
Proof.
  cbv zeta. assert (RE : forall x, ot_run 2 8 4 (repeat [] 4) 0 (ex_md_in ex_md_2 290) x = ex_md ex_md_2 290 x) by (intros x; unfold ex_md; reflexivity).
  destruct (ex_md_on ex_md_2 290) as (ON & RB & RA); [lia|vm_compute; reflexivity|vm_compute; reflexivity|vm_compute; reflexivity|vm_compute; reflexivity|vm_compute; discriminate|vm_compute; reflexivity|].
  split; [exact ON|]. split; [|split; [reflexivity|split; [|split; [|split]]]].
  - destruct (ex_md_clocks ex_md_2 290) as [C1 C2]. split; [exact C1|]. intros a b AB H. apply C2; [exact AB|]. lia.
  - intros t v O. rewrite RE in O. destruct (ex_md_two ex_md_2 290 1032 448 ltac:(lia) ltac:(lia) ltac:(lia) ltac:(vm_compute; reflexivity) ltac:(vm_compute; reflexivity) t v O) as [-> | ->].
    + split; [exact (proj1 ex_md_whole)|]. change (frame_len ex_md_1) with 64. lia.
    + split; [exact (proj1 (proj2 ex_md_whole))|]. change (frame_len ex_md_2) with 56. lia.
  - exists 14%nat, 1032%nat. rewrite !RE. split; vm_compute; reflexivity.
  - intros x X. rewrite RE. exact (RA x X).
  - set (o := fun n => _). set (dv := fun n => ot_dv _ _ _ _).
    enough (underflows o dv 1024 = underflows o dv 400) as -> by lia.
    unfold underflows. change 1024%nat with (400 + 624)%nat. rewrite occ_app. cbn [Nat.add]. rewrite (occ_zero _ 400 624); [lia|].
    intros k K. assert (B : forall d, (d < 624)%nat -> ex_md_flow (ex_md ex_md_2 290 (400 + d)) (400 + d)%nat = true).
    { exact (scan_sound _ _ (ot_step 2 8 4) (ex_md_in ex_md_2 290) ex_md_flow (ot_init (repeat [] 4) 0) 624 400 ltac:(vm_compute; reflexivity)). }
    specialize (B (k - 400)%nat ltac:(lia)). replace (400 + (k - 400))%nat with k in B by lia. apply negb_true_iff in B. unfold ex_md_flow in B. exact B.
Qed.
