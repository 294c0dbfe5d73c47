(** C85: from the transmitter's memory to the receiver's memory, start-up included. *)
From Coq Require Import ZArith List Bool Lia Arith.
From Verif Require Import Hdl Trace TmdsModel TmdsSpec AnalysisModel TimingModel TimingSpec TimingProofs VideoOutModel VideoOutProofs
  CharSyncModel CharSyncSpec HdmiModel HdmiProofs LinkModel LinkProofs LinkProps InDmaModel FifoModel CaptureModel CaptureProofs CaptureProps
  FrameProofs FrameProps InDmaProofs InDmaProps GenlockProps PhyModel PhyProps StartupProofs.
Import ListNotations.
Open Scope Z_scope.

(** A stream with underflows, none of them from clock [T] on.  [g] is the first
    frame whose beginning lies at least 30 clocks after [T]; from the third frame
    after it the receiver reports the resolution and captures every frame whole,
    as late as there were underflows. *)
Theorem C85_frames_after_startup :
  forall p : fparam,
  params_ok p -> 24 <= p_hres p -> p_hres p + 30 <= p_hscan p + 1 -> 1 <= p_vres p <= p_vscan p ->
  p_hres p < p_hs_start p -> p_vres p <= p_vs_start p < p_vs_end p ->
  forall w dv junk, let o := uf_stream p w dv junk in
  forall T, (forall n, (T <= n)%nat -> px_de (o n) = true -> dv n = true) -> let u := underflows o dv T in
  forall g, 1 <= g -> Z.of_nat T + 30 <= Z.of_nat u + 1 + g * ((p_vscan p + 1) * (p_hscan p + 1)) ->
  forall L Lmin raw s0, link o L Lmin raw s0 ->
  exists D, (forall k, (k < 3)%nat -> (L k / 10 + 7 < D <= L k / 10 + 15)%nat) /\
  (forall n, Z.of_nat u + Z.of_nat D + (g + 4) * ((p_hscan p + 1) * (p_vscan p + 1)) <= Z.of_nat n ->
   let r := rx_rd (rx_run s0 raw n) in rd_h r = p_hres p mod 2 ^ 11 /\ rd_v r = p_vres p mod 2 ^ 11) /\
  forall k m, (1 <= k)%nat -> let F := (2 ^ k)%nat in p_hres p * p_vres p = Z.of_nat (F * m) ->
  forall f t1 t2, g + 3 <= Z.of_nat f ->
  let vsync_of v := 1 + (v * (p_vscan p + 1) + p_vs_start p) * (p_hscan p + 1) in
  Z.of_nat t1 = vsync_of (Z.of_nat f - 1) + Z.of_nat (u + D) -> Z.of_nat t2 = vsync_of (Z.of_nat f) + Z.of_nat (u + D) ->
  collect (word_out F (pk_stream s0 raw)) (t1 + 1) (t2 - t1) =
  map (fun j => (Nat.eqb j 0, rev (map (fun q => stored (w (f * (F * m) + q)%nat)) (seq (F * j) F)))) (seq 0 m).
Proof.
  intros p ok H1 H2 H3 H4 H5 w dv junk o T HT u g Hg HTg L Lmin raw s0 Hl.
  assert (lk : link_ok p) by (constructor; assumption).
  assert (CK : Z.of_nat T + 30 <= Z.of_nat u + Z.of_nat (clk p g 0 0)).
  { rewrite clk_z by (try exact lk; lia). nia. }
  destruct (link_uf p lk w dv junk T HT g Hg CK L Lmin raw s0 Hl) as (D & B & P). exists D. split; [exact B|]. split.
  - intros n Hn. apply (frame_resolution p lk w s0 raw (u + D) (g + 1) ltac:(lia) P). lia.
  - intros k m Hk F HF f t1 t2 Hf. apply (frame_words p lk w s0 raw (u + D) (g + 1) ltac:(lia) P k m Hk HF). lia.
Qed.
Print Assumptions C85_frames_after_startup.

Lemma link_ext : forall t t' L Lmin raw s0, (forall n, t n = t' n) -> link t L Lmin raw s0 -> link t' L Lmin raw s0.
Proof.
  intros t t' L Lmin raw s0 E (A & B & C). split; [exact A|]. split; [|exact C]. intros k Hk. destruct (B k Hk) as [B1 B2].
  split; [exact B1|]. intros b Hb. rewrite B2 by exact Hb. unfold serial, tx_word. do 2 f_equal. unfold enc_at.
  apply at_ext. intros n. rewrite E. reflexivity.
Qed.

(** The whole chain: the video output core with its parameter queue, frame reader
    and memory reader on one side; receiver, packer, clock crossing and DMA on the
    other.  The transmitter's memory holds the picture at [vp_base pr]. *)
Theorem C85_memory_to_memory :
  forall txaw depth pr (ti : nat -> vt_in), let p := vp_t pr in
  (params_ok p -> 24 <= p_hres p -> p_hres p + 30 <= p_hscan p + 1 -> 1 <= p_vres p <= p_vscan p ->
  p_hres p < p_hs_start p -> p_vres p <= p_vs_start p < p_vs_end p ->
  0 <= txaw -> vp_length pr = p_hres p * p_vres p -> vp_length pr <= 2 ^ txaw ->
  (forall n q, ti_push (ti n) = Some q -> q = pr) -> (forall n, vt_q (vt_run txaw depth [pr] ti n) <> []) ->
  (forall n, ti_ready (ti n) = true) ->
  forall Mtx junk,
  let o n := vt_px Mtx (junk n) (vt_run txaw depth [pr] ti n) (ti n) in
  let dv n := vi_dv (vt_vi (vt_run txaw depth [pr] ti n) (ti n)) in
  forall T, (forall n, (T <= n)%nat -> px_de (o n) = true -> dv n = true) -> let u := underflows o dv T in
  forall g, 1 <= g -> Z.of_nat T + 30 <= Z.of_nat u + 1 + g * ((p_vscan p + 1) * (p_hscan p + 1)) ->
  forall L Lmin raw s0, link o L Lmin raw s0 ->
  forall k m, (1 <= k)%nat -> let F := (2 ^ k)%nat in p_hres p * p_vres p = Z.of_nat (F * m) ->
  exists D, (forall k, (k < 3)%nat -> (L k / 10 + 7 < D <= L k / 10 + 15)%nat) /\
  forall n aw align mem ra d0 (i : nat -> cap_in), let dw := 32 * Z.of_nat F in
  1 <= n -> Z.of_nat (length mem) = 2 ^ n -> 0 < aw ->
  (forall t, cap_pix (i t) = true -> cap_pk (i t) = pk_stream s0 raw (occurrences (fun v => cap_pix (i v)) 0 t)) ->
  forall T0 x y, (T0 <= x < y)%nat ->
  let vsync_of v := 1 + (v * (p_vscan p + 1) + p_vs_start p) * (p_hscan p + 1) in
  Z.of_nat (occurrences (fun v => cap_pix (i v)) 0 T0) = vsync_of (g + 2) + Z.of_nat (u + D) + 1 ->
  (forall t, (T0 <= t <= y)%nat -> c_lost n F 32 aw dw align mem ra d0 i t = false) ->
  (length (collect (c_kept n F 32 aw dw align mem ra d0 i) 0 T0) <= length (collect (c_taken n F 32 aw dw align mem ra d0 i) 0 x))%nat ->
  c_starts n F 32 aw dw align mem ra d0 i x = true -> Z.of_nat m = size_words aw align (cap_size (i x)) ->
  occurrences (c_accepted n F 32 aw dw align mem ra d0 i) (x + 1) (y - x - 1) = (m - 1)%nat ->
  c_accepted n F 32 aw dw align mem ra d0 i y = true ->
  let a := word_address aw align (sl_addr (dm_slot (cap_dma (cap_run n F 32 aw dw align mem ra d0 i x)))) in
  forall M, let M' := after M (collect (c_write n F 32 aw dw align mem ra d0 i) (x + 1) (y - x)) in
  (forall q, (q < F * m)%nat ->
     slice (32 * Z.of_nat (F - 1 - q mod F)) 32 (M' ((a + Z.of_nat (q / F)) mod 2 ^ aw)) =
     stored (Mtx ((vp_base pr + Z.of_nat q) mod 2 ^ txaw))) /\
  (forall z, (forall j, (j < m)%nat -> z <> (a + Z.of_nat j) mod 2 ^ aw) -> M' z = M z))%Z.
Proof.
  intros txaw depth pr ti p ok H1 H2 H3 H4 H5 Haw HL HLen Hpush Hq Hready Mtx junk o dv T HT u g Hg HTg L Lmin raw s0 Hl k m Hk F HF.
  assert (lk : link_ok p) by (constructor; assumption).
  assert (Hlen : 0 < vp_length pr <= 2 ^ txaw) by nia.
  set (w := fun q => Mtx (wordaddr txaw pr q)). set (o' := uf_stream p w dv junk).
  assert (E : forall n, o n = o' n) by exact (vt_is_uf txaw depth pr ti Haw Hlen ok Hpush dr_init [] 0%nat 0 ltac:(lia) (reader_init txaw pr ltac:(lia)) Hq Hready Mtx junk).
  assert (EU : u = underflows o' dv T).
  { unfold u, underflows. apply occurrences_ext. intros t _. rewrite E. reflexivity. }
  assert (HT' : forall n, (T <= n)%nat -> px_de (o' n) = true -> dv n = true) by (intros n N X; apply (HT n N); rewrite E; exact X).
  assert (CK : Z.of_nat T + 30 <= Z.of_nat u + Z.of_nat (clk p g 0 0)).
  { rewrite clk_z by (try exact lk; lia). nia. }
  rewrite EU in CK.
  destruct (link_uf p lk w dv junk T HT' g Hg CK L Lmin raw s0 (link_ext _ _ L Lmin raw s0 E Hl)) as (D & B & P).
  exists D. split; [exact B|]. fold o' in P. rewrite <- EU in P.
  pose proof (frame_words p lk w s0 raw (u + D) (g + 1) ltac:(lia) P k m Hk HF) as W.
  intros n aw align mem ra d0 i dw N HM Haw' HX T0 x y T0x vsync_of E0 NL OLD ST SZ CNT LAST a M M'.
  replace (g + 2) with (g + 1 + 1) in E0 by lia.
  destruct (frame_to_memory p lk (pk_stream s0 raw) (fun q => stored (w q)) 32 (u + D)%nat (g + 1) ltac:(lia) (fun q => stored_range (w q)) ltac:(lia) k m HF W n aw align mem ra d0 i N HM Haw' HX T0 x y T0x E0 NL OLD ST SZ CNT LAST M)
    as (f & A1 & A2 & A3). split; [|exact A3].
  intros q Q. etransitivity; [apply (A2 q Q)|]. unfold w, wordaddr, trunc.
  replace (Z.of_nat (f * (2 ^ k * m) + q) mod vp_length pr) with (Z.of_nat q); [reflexivity|]. fold F. rewrite HL, HF.
  replace (Z.of_nat (f * (F * m) + q)) with (Z.of_nat q + Z.of_nat f * Z.of_nat (F * m)) by lia.
  rewrite Z.mod_add by lia. symmetry. apply Z.mod_small. lia.
Qed.
Print Assumptions C85_memory_to_memory.

(** The hypotheses on the transmitter are met: memory that accepts in three
    clocks of four, a queue of eight words.  Nine pixels of the first line come
    late, then none. *)
Definition ex_pr : vparam := {| vp_t := ex_mode; vp_base := 100; vp_length := 48 |}.
Definition ex_ti (n : nat) : vt_in :=
  {| ti_push := Some ex_pr; ti_mem := negb (Nat.eqb (n mod 4) 3); ti_ret := true; ti_ready := true; ti_junk := ex_pr |}.
Definition ex_vt (n : nat) : vt_st := vt_run 8 8 [ex_pr] ex_ti n.

Lemma ex_vt_period : forall k n, ex_vt (280 * k + 400 + n)%nat = ex_vt (400 + n)%nat.
Proof.
  assert (SS : forall k n, ex_ti (280 * k + 400 + n) = ex_ti (400 + n)).
  { intros k n. unfold ex_ti. replace (280 * k + 400 + n)%nat with (400 + n + 70 * k * 4)%nat by lia. rewrite Nat.mod_add by lia. reflexivity. }
  assert (E : forall k n, ex_vt (280 * k + 400 + n)%nat = at_ (vt_step 8 8) (ex_vt (280 * k + 400)%nat) (fun x => ex_ti (400 + x)) n).
  { intros k n. etransitivity; [apply at_plus|]. apply at_ext. intros t. apply SS. }
  assert (E0 : ex_vt 680 = ex_vt 400) by (vm_compute; reflexivity).
  assert (P : forall k, ex_vt (280 * k + 400)%nat = ex_vt 400).
  { induction k as [|k IH]; [reflexivity|]. replace (280 * S k + 400)%nat with (280 * k + 400 + 280)%nat by lia. rewrite E, IH.
    rewrite <- E0 at 2. pose proof (E 0%nat 280%nat) as Q. rewrite Nat.mul_0_r, Nat.add_0_l in Q.
    change (400 + 280)%nat with 680%nat in Q. symmetry. exact Q. }
  intros k n. rewrite E, P. pose proof (E 0%nat n) as Q. rewrite Nat.mul_0_r, Nat.add_0_l in Q. symmetry. exact Q.
Qed.

Lemma ex_vt_all : forall (f : vt_st -> vt_in -> bool),
  forallb (fun n => f (ex_vt n) (ex_ti n)) (seq 33 647) = true -> forall n, (33 <= n)%nat -> f (ex_vt n) (ex_ti n) = true.
Proof.
  intros f H n N. rewrite forallb_forall in H.
  destruct (Nat.lt_ge_cases n 680) as [L|L]; [apply H, in_seq; lia|].
  pose proof (Nat.div_mod (n - 400) 280 ltac:(lia)) as D. pose proof (Nat.mod_upper_bound (n - 400) 280 ltac:(lia)) as B.
  set (k := ((n - 400) / 280)%nat) in *. set (r := ((n - 400) mod 280)%nat) in *.
  replace n with (280 * k + 400 + r)%nat by lia. rewrite ex_vt_period.
  replace (ex_ti (280 * k + 400 + r)) with (ex_ti (400 + r)); [apply H, in_seq; lia|].
  unfold ex_ti. replace (280 * k + 400 + r)%nat with (400 + r + 70 * k * 4)%nat by lia. rewrite Nat.mod_add by lia. reflexivity.
Qed.

Example ex_startup : forall Mtx junk,
  let o n := vt_px Mtx (junk n) (ex_vt n) (ex_ti n) in
  let dv n := vi_dv (vt_vi (ex_vt n) (ex_ti n)) in
  (forall n, vt_q (ex_vt n) <> []) /\ (forall n, (33 <= n)%nat -> px_de (o n) = true -> dv n = true) /\
  underflows o dv 33 = 9%nat /\
  Z.of_nat 33 + 30 <= Z.of_nat 9 + 1 + 1 * ((p_vscan ex_mode + 1) * (p_hscan ex_mode + 1)).
Proof.
  intros Mtx junk o dv.
  assert (Q : forall n, (33 <= n)%nat -> vt_valid (ex_vt n) = true).
  { intros n N. apply (ex_vt_all (fun s _ => vt_valid s)); [vm_compute; reflexivity|exact N]. }
  split; [|split; [|split]].
  - intros n E. destruct (Nat.lt_ge_cases n 33) as [L|L].
    + assert (X : forallb (fun n => vt_valid (ex_vt n)) (seq 0 33) = true) by (vm_compute; reflexivity).
      rewrite forallb_forall in X. specialize (X n). unfold vt_valid in X. rewrite E in X.
      assert (false = true) by (apply X, in_seq; lia). discriminate.
    + specialize (Q n L). unfold vt_valid in Q. rewrite E in Q. discriminate.
  - intros n N. pose proof (ex_vt_all (fun s x => negb (tg_de true (vt_tg s)) || vi_dv (vt_vi s x)) ltac:(vm_compute; reflexivity) n N) as H.
    change (px_de (o n)) with (tg_de (vt_valid (ex_vt n)) (vt_tg (ex_vt n))). rewrite (Q n N). intros D. cbv beta in H. rewrite D in H. exact H.
  - unfold underflows. rewrite (occurrences_ext _ (fun m => tg_de (vt_valid (ex_vt m)) (vt_tg (ex_vt m)) && negb (dv m))) by reflexivity.
    vm_compute. reflexivity.
  - cbn. lia.
Qed.
