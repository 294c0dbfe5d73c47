(** C118: raw mode from the registers, and playback of a recorded signal. *)
From Coq Require Import ZArith List Bool Lia Arith.
From Verif Require Import Hdl Trace CdcProofs TmdsModel AnalysisModel TimingModel TimingSpec TimingProofs VideoOutModel VideoOutProofs
  HdmiModel HdmiProofs CharSyncSpec CharSyncProofs CharSyncProps LinkModel LinkProofs LinkProps FifoModel FifoProofs FifoProps StartupProofs OutTopModel OutTopProofs OutTopProps
  YccPathModel RawModel RawProps RawTopModel RawTopProofs JoinProps HdmiProps.
Import ListNotations.
Open Scope Z_scope.

(** As [enabled_with] of OutTopProps.v, in raw mode: the output is enabled at instant [u] and
    stays enabled; from [u] on the registers hold [R]; [t0] is the first instant with a
    parameter set at the output of the FIFO. *)
Definition raw_enabled (shift aw : Z) (depth : nat) (mem : list (list Z)) (ra : Z) (i : nat -> ot_in) (u : nat) (R : list Z) (t0 : nat) : Prop :=
  let s x := ot_ini (rt_run shift aw depth mem ra i x) in
  (forall x, ini_en (s x) = (u <=? x)%nat) /\ (forall x, (u <= x)%nat -> ini_regs (s x) = R) /\
  ini_out (s t0) <> None /\ (forall x, (x < t0)%nat -> ini_out (s x) = None).
(** The memory word that holds word [q] of the buffer at the byte address in the base register. *)
Definition buffer_word (shift aw : Z) (R : list Z) (q : Z) : Z := (nth 8 R 0 / 2 ^ shift + q) mod 2 ^ aw.

Section Raw.
Variables (shift aw : Z) (depth : nat) (mem : list (list Z)) (ra : Z) (i : nat -> ot_in).
Hypothesis Haw : 0 <= aw.
Hypothesis HM : length mem = 4%nat.
Variables (u : nat) (R : list Z) (t0 : nat).
Hypothesis Hon : raw_enabled shift aw depth mem ra i u R t0.
Let p := timing_of R.
Hypothesis ok : params_ok p.
Let len := nth 9 R 0 / 2 ^ shift.
Hypothesis Hlen : 0 < len < 2 ^ aw.
Variable E : nat -> nat.
Hypothesis HE : clocks i ((p_hscan p + 1) * (p_vscan p + 1)) E.
Hypothesis Hready : forall x, ot_ready (i x) = true.
Let st := rt_run shift aw depth mem ra i.
Let dv n := ot_dv shift aw (st (E n)) (i (E n)).
Let n0 := occurrences (fun x => ot_cd (i x)) 0 t0.
Let pr := regs_param shift aw R.
Let ci := rt_core_in shift aw i R t0 E.

Lemma raw_core : forall k, dv (n0 + k)%nat = rw_dv (rw_run aw depth [pr] ci k) (ci k) /\
  forall M junk, rt_words shift aw M junk (st (E (n0 + k)%nat)) (i (E (n0 + k)%nat)) = rw_words M junk (rw_run aw depth [pr] ci k) (ci k).
Proof.
  destruct Hon as (En & Rg & Of & Bf). destruct HE as [HE1 HE2].
  assert (Hv : forall t v, ini_out (ot_ini (st t)) = Some v -> v = R /\ (u < t)%nat) by (intros t v; apply (rt_offer_R shift aw depth mem ra i HM u R En Rg)).
  assert (U : (u < t0)%nat). { destruct (ini_out (ot_ini (st t0))) as [v|] eqn:O; [apply (Hv _ _ O)|]. exfalso. apply Of. exact O. }
  pose proof (rt_idle shift aw depth mem ra i HM t0 Bf) as BASE.
  assert (HEN : forall x, (t0 <= x)%nat -> ini_en (ot_ini (st x)) = true) by (intros y Y; unfold st; rewrite En; apply Nat.leb_le; lia).
  assert (HS : forall a b, (a <= b)%nat -> (Z.to_nat ((p_hscan p + 1) * (p_vscan p + 1)) <= occurrences (fun x => ot_cd (i x)) a (b - a) + 2)%nat ->
    (4 <= occurrences (fun x => ot_sys (i x)) a (b - a))%nat) by (intros a b AB HX; apply HE2; [exact AB|lia]).
  intros k.
  assert (CORE : vt_vi (ot_vt shift aw (st (E (n0 + k)%nat))) (ot_ti shift aw (st (E (n0 + k)%nat)) (i (E (n0 + k)%nat))) = vt_vi (rw_run aw depth [pr] ci k) (ci k)).
  { exact (proj1 (rt_core shift aw depth mem ra i HM R t0 HEN (fun t v _ O => proj1 (Hv t v O)) BASE Of ok E HE1 HS k)). }
  split; [unfold dv, ot_dv, rw_dv; rewrite CORE; reflexivity|]. intros M junk. unfold rt_words, rw_words, rw_dv. rewrite CORE. reflexivity.
Qed.
Lemma pr_length : vp_length pr = len.
Proof. unfold pr, regs_param, dr_words. cbn [vp_length]. unfold trunc. apply Z.mod_small. fold len. lia. Qed.
Lemma pr_word : forall q, (vp_base pr + q) mod 2 ^ aw = buffer_word shift aw R q.
Proof. intros q. assert (0 < 2 ^ aw) by (apply Z.pow_pos_nonneg; lia). unfold buffer_word, pr, regs_param, dr_words, trunc. cbn [vp_base]. apply Zplus_mod_idemp_l. Qed.
Lemma push_pr : forall m q, ti_push (ci m) = Some q -> q = pr.
Proof. intros m q H. injection H. auto. Qed.
Lemma raw_occ : forall k, occurrences (fun m => rw_dv (rw_run aw depth [pr] ci m) (ci m)) 0 k = occurrences dv n0 k.
Proof. induction k as [|k IH]; [reflexivity|]. cbn [occurrences]. rewrite IH, Nat.add_0_l. rewrite <- (proj1 (raw_core k)). reflexivity. Qed.

Lemma raw_words : forall M junk n, (n0 <= n)%nat -> dv n = true ->
  let x := M (buffer_word shift aw R (Z.of_nat (occurrences dv n0 (n - n0)) mod len)) in
  rt_words shift aw M junk (st (E n)) (i (E n)) = (raw_word x 0, raw_word x 1, raw_word x 2).
Proof.
  intros M junk n Hn DV x. set (k := (n - n0)%nat). assert (EK : n = (n0 + k)%nat) by lia. destruct (raw_core k) as [DK G]. rewrite <- EK in DK, G.
  rewrite G. rewrite DV in DK. symmetry in DK.
  pose proof (C93_raw_words aw depth pr ci Haw ltac:(rewrite pr_length; lia) push_pr (rw_refilled aw depth pr ci (fun _ => eq_refl)) (fun m => Hready _) M junk k DK) as W.
  cbv zeta in W. rewrite pr_length, raw_occ, pr_word in W. exact W.
Qed.
Lemma raw_gaps : forall k, Z.of_nat (occurrences dv n0 k) * (len + 1) <= Z.of_nat k * len.
Proof.
  intros k. pose proof (rw_gaps aw depth pr ci Haw ltac:(rewrite pr_length; lia) push_pr (rw_refilled aw depth pr ci (fun _ => eq_refl)) (fun m => Hready _) k) as W.
  cbv zeta in W. rewrite raw_occ, pr_length in W. exact W.
Qed.

(** A memory that accepts and answers in every clock. *)
Hypothesis Hideal : forall n, (n0 <= n)%nat -> ot_mem (i (E n)) = true /\ ot_ret (i (E n)) = true.
Hypothesis Hdepth : (2 <= depth)%nat.
Lemma ideal_state : forall k, let s := rw_run aw depth [pr] ci k in
  (k = 0%nat /\ dr_state (vt_dr s) = DR_IDLE /\ vt_reads s = []) \/
  exists a r, 0 <= a /\ 0 <= r <= len /\ Z.of_nat k = 1 + a * (len + 1) + r /\
  (if r <? len then dr_state (vt_dr s) = DR_READ /\ dr_offset (vt_dr s) = r else dr_state (vt_dr s) = DR_IDLE) /\
  vt_reads s = if r =? 0 then [] else [buffer_word shift aw R (r - 1)].
Proof.
  induction k as [|k IH]; [left; auto|]. cbv zeta in *.
  destruct (rw_head_const aw depth pr ci push_pr (rw_refilled aw depth pr ci (fun _ => eq_refl)) k) as [Hh Hv].
  change (rw_run aw depth [pr] ci (S k)) with (rw_step aw depth (rw_run aw depth [pr] ci k) (ci k)).
  set (s := rw_run aw depth [pr] ci k) in *. right. unfold rw_step. cbv zeta. cbn [vt_dr vt_reads].
  destruct (Hideal (n0 + k)%nat ltac:(lia)) as [MEM RET].
  assert (TM : ti_mem (ci k) = true) by exact MEM. assert (TR : ti_ret (ci k) = true) by exact RET.
  set (v := vt_vi s (ci k)).
  assert (TK : vi_dv v && vo_dready true (vt_tg s) v = vi_dv v).
  { unfold vo_dready, vo_valid. assert (VV : vi_valid v = true) by exact Hv. rewrite VV. cbn [negb andb].
    rewrite orb_true_r, andb_true_r. replace (vi_ready v) with true by (symmetry; apply Hready). destruct (vi_dv v); [|reflexivity].
    rewrite orb_true_r. reflexivity. }
  rewrite TK. assert (DVV : vi_dv v = match vt_reads s with [] => false | _ => true end) by (unfold v, vt_vi; cbn [vi_dv]; rewrite TR; destruct (vt_reads s); reflexivity).
  rewrite DVV.
  assert (VAL : dri_valid (vt_di depth s (ci k)) = true) by exact Hv.
  assert (LN : dri_length (vt_di depth s (ci k)) = len) by (cbn [vt_di dri_length]; rewrite Hh; apply pr_length).
  assert (BS : dri_base (vt_di depth s (ci k)) = vp_base pr) by (cbn [vt_di dri_base]; rewrite Hh; reflexivity).
  assert (RDY : (length (vt_reads s) <= 1)%nat -> dri_ready (vt_di depth s (ci k)) = true).
  { intros LE. cbn [vt_di dri_ready]. rewrite TM. apply Nat.ltb_lt. lia. }
  unfold dr_step, dr_taken, dr_done, dr_addr_valid, dr_addr. cbn [dr_state dr_offset].
  destruct IH as [(K0 & ST & RE)|(a & r & A & RR & KE & ST & RE)].
  - rewrite ST, RE, VAL. cbn [andb app]. exists 0, 0. split; [lia|]. split; [lia|]. split; [lia|]. destruct (Z.ltb_spec 0 len); [|lia]. auto.
  - assert (L1 : (length (vt_reads s) <= 1)%nat) by (rewrite RE; destruct (r =? 0); cbn; lia). specialize (RDY L1).
    assert (E1 : (if match vt_reads s with [] => false | _ => true end then tl (vt_reads s) else vt_reads s) = []) by (rewrite RE; destruct (r =? 0); reflexivity).
    rewrite E1. destruct (Z.ltb_spec r len) as [RL|RL].
    + destruct ST as [ST OF]. rewrite ST, OF, RDY, LN, BS. cbn [andb app]. exists a, (r + 1). split; [lia|]. split; [lia|]. split; [lia|].
      split.
      * destruct (Z.eqb_spec r (len - 1)), (Z.ltb_spec (r + 1) len); try lia; [reflexivity|]. split; [reflexivity|]. unfold trunc. apply Z.mod_small. lia.
      * destruct (Z.eqb_spec (r + 1) 0); [lia|]. unfold trunc. rewrite pr_word. do 2 f_equal. lia.
    + rewrite ST, VAL. cbn [andb app]. exists (a + 1), 0. split; [lia|]. split; [lia|]. split; [lia|]. destruct (Z.ltb_spec 0 len); [|lia]. auto.
Qed.
Lemma ideal_words : forall a r, 0 <= a -> 0 <= r <= len -> let n := (n0 + Z.to_nat (1 + a * (len + 1) + r))%nat in
  dv n = negb (r =? 0) /\ (r <> 0 -> forall M junk, let x := M (buffer_word shift aw R (r - 1)) in
  rt_words shift aw M junk (st (E n)) (i (E n)) = (raw_word x 0, raw_word x 1, raw_word x 2)).
Proof.
  intros a r A RR n. set (k := Z.to_nat (1 + a * (len + 1) + r)) in n. assert (POS : 0 <= a * (len + 1)) by (apply Z.mul_nonneg_nonneg; lia).
  destruct (raw_core k) as [DK G]. fold n in DK, G.
  destruct (ideal_state k) as [(K0 & _)|(a' & r' & A' & RR' & KE & ST & RE)]; [unfold k in K0; lia|].
  assert (EQ : a' * (len + 1) + r' = a * (len + 1) + r) by (unfold k in KE; lia).
  assert (RQ : r' = r).
  { assert (M1 : (r' + a' * (len + 1)) mod (len + 1) = (r + a * (len + 1)) mod (len + 1)) by (f_equal; lia).
    rewrite !Z.mod_add, !Z.mod_small in M1 by lia. exact M1. }
  subst r'. cbv zeta in RE. destruct (Hideal (n0 + k)%nat ltac:(lia)) as [_ RET].
  assert (DVV : rw_dv (rw_run aw depth [pr] ci k) (ci k) = negb (r =? 0)).
  { unfold rw_dv, vt_vi. cbn [vi_dv]. rewrite RE. assert (TR : ti_ret (ci k) = true) by exact RET. rewrite TR. destruct (r =? 0); reflexivity. }
  split; [rewrite DK; exact DVV|]. intros RN M junk x. rewrite G. unfold rw_words. rewrite DVV.
  destruct (Z.eqb_spec r 0); [lia|]. cbn [negb]. cbn [vt_vi vi_data]. rewrite RE. reflexivity.
Qed.
End Raw.

(** From the registers: whenever the reader has a word, in the active area or not, the
    serialisers get the fields of the next word of the buffer, in order and each once, then
    from the start again. *)
Theorem C118_raw_words :
  forall shift aw depth mem ra (i : nat -> ot_in), 0 <= aw -> length mem = 4%nat ->
  forall u R t0, raw_enabled shift aw depth mem ra i u R t0 ->
  let p := timing_of R in params_ok p ->
  let len := nth 9 R 0 / 2 ^ shift in 0 < len < 2 ^ aw ->
  forall E, clocks i ((p_hscan p + 1) * (p_vscan p + 1)) E -> (forall x, ot_ready (i x) = true) ->
  let st := rt_run shift aw depth mem ra i in
  let dv n := ot_dv shift aw (st (E n)) (i (E n)) in
  let n0 := occurrences (fun x => ot_cd (i x)) 0 t0 in
  forall M junk n, (n0 <= n)%nat -> dv n = true ->
  let x := M (buffer_word shift aw R (Z.of_nat (occurrences dv n0 (n - n0)) mod len)) in
  rt_words shift aw M junk (st (E n)) (i (E n)) = (raw_word x 0, raw_word x 1, raw_word x 2).
Proof. intros shift aw depth mem ra i Haw HM u R t0 Hon p ok len Hlen E HE Hready. exact (raw_words shift aw depth mem ra i Haw HM u R t0 Hon ok Hlen E HE Hready). Qed.
Print Assumptions C118_raw_words.

(** Whatever the memory does, the reader needs a clock of its own for every pass over the
    buffer: of any [len + 1] clocks at least one, on average, has no word, so that raw mode
    never sends a signal without gaps. *)
Theorem C118_gaps :
  forall shift aw depth mem ra (i : nat -> ot_in), 0 <= aw -> length mem = 4%nat ->
  forall u R t0, raw_enabled shift aw depth mem ra i u R t0 ->
  let p := timing_of R in params_ok p ->
  let len := nth 9 R 0 / 2 ^ shift in 0 < len < 2 ^ aw ->
  forall E, clocks i ((p_hscan p + 1) * (p_vscan p + 1)) E -> (forall x, ot_ready (i x) = true) ->
  let st := rt_run shift aw depth mem ra i in
  let dv n := ot_dv shift aw (st (E n)) (i (E n)) in
  let n0 := occurrences (fun x => ot_cd (i x)) 0 t0 in
  (forall k, Z.of_nat (occurrences dv n0 k) * (len + 1) <= Z.of_nat k * len) /\
  forall T, exists n, (T <= n)%nat /\ dv n = false.
Proof.
  intros shift aw depth mem ra i Haw HM u R t0 Hon p ok len Hlen E HE Hready st dv n0.
  pose proof (raw_gaps shift aw depth mem ra i Haw HM u R t0 Hon ok Hlen E HE Hready) as G. fold st dv n0 in G. split; [exact G|].
  intros T. set (T' := (Nat.max T n0 - n0)%nat). set (K := S (Z.to_nat ((len + 1) * (Z.of_nat T' + 1)))).
  destruct (forallb (fun j => dv (n0 + T' + j)%nat) (seq 0 K)) eqn:F.
  - exfalso. rewrite forallb_forall in F.
    assert (ALL : occurrences dv (n0 + T') K = K).
    { apply all_taken. intros m Hm. replace m with (n0 + T' + (m - n0 - T'))%nat by lia. apply F, in_seq. lia. }
    specialize (G (T' + K)%nat). fold len in G. replace (occurrences dv n0 (T' + K)) with (occurrences dv n0 T' + K)%nat in G by (rewrite occ_app, ALL; reflexivity).
    assert (KZ : Z.of_nat K = 1 + (len + 1) * (Z.of_nat T' + 1)) by (unfold K; rewrite Nat2Z.inj_succ, Z2Nat.id by (apply Z.mul_nonneg_nonneg; lia); lia).
    assert (LE : Z.of_nat K * (len + 1) <= Z.of_nat (occurrences dv n0 T' + K) * (len + 1)) by (apply Z.mul_le_mono_nonneg_r; lia).
    assert (LE2 : Z.of_nat K * (len + 1) <= Z.of_nat (T' + K) * len) by lia. rewrite Nat2Z.inj_add in LE2.
    assert (LE3 : Z.of_nat K <= Z.of_nat T' * len) by lia. rewrite KZ in LE3. clear - LE3 Hlen. nia.
  - assert (X : exists j, In j (seq 0 K) /\ dv (n0 + T' + j)%nat = false).
    { revert F. generalize (seq 0 K) as l. induction l as [|j l IH]; cbn [forallb]; [discriminate|]. destruct (dv (n0 + T' + j)%nat) eqn:D.
      - intros F. destruct (IH F) as (j' & J & D'). exists j'. split; [right; exact J|exact D'].
      - intros _. exists j. split; [left; reflexivity|exact D]. }
    destruct X as (j & _ & D). exists (n0 + T' + j)%nat. split; [lia|exact D].
Qed.
Print Assumptions C118_gaps.

(** With a memory that accepts and answers in every clock there is exactly one clock
    without a word before each pass. *)
Theorem C118_every_pass :
  forall shift aw depth mem ra (i : nat -> ot_in), 0 <= aw -> length mem = 4%nat ->
  forall u R t0, raw_enabled shift aw depth mem ra i u R t0 ->
  let p := timing_of R in params_ok p ->
  let len := nth 9 R 0 / 2 ^ shift in 0 < len < 2 ^ aw ->
  forall E, clocks i ((p_hscan p + 1) * (p_vscan p + 1)) E -> (forall x, ot_ready (i x) = true) ->
  let st := rt_run shift aw depth mem ra i in
  let dv n := ot_dv shift aw (st (E n)) (i (E n)) in
  let n0 := occurrences (fun x => ot_cd (i x)) 0 t0 in
  (forall n, (n0 <= n)%nat -> ot_mem (i (E n)) = true /\ ot_ret (i (E n)) = true) -> (2 <= depth)%nat ->
  forall a r, 0 <= a -> 0 <= r <= len -> let n := (n0 + Z.to_nat (1 + a * (len + 1) + r))%nat in
  dv n = negb (r =? 0) /\ (r <> 0 -> forall M junk, let x := M (buffer_word shift aw R (r - 1)) in
  rt_words shift aw M junk (st (E n)) (i (E n)) = (raw_word x 0, raw_word x 1, raw_word x 2)).
Proof.
  intros shift aw depth mem ra i Haw HM u R t0 Hon p ok len Hlen E HE Hready st dv n0 Hid Hd.
  exact (ideal_words shift aw depth mem ra i Haw HM u R t0 Hon ok Hlen E HE Hready Hid Hd).
Qed.
Print Assumptions C118_every_pass.

(** ** Playback *)

(** A blank character resets the encoder. *)
Lemma enc_forget : forall i i' n n', (forall j, (j < 4)%nat -> i (n + j)%nat = i' (n' + j)%nat) -> ei_de (i n) = false ->
  enc_at i (n + 4) = enc_at i' (n' + 4).
Proof.
  intros i i' n n' H D. replace (n + 4)%nat with (S (S (S (S n)))) by lia. replace (n' + 4)%nat with (S (S (S (S n')))) by lia. unfold enc_at. cbn [at_].
  pose proof (H 0%nat ltac:(lia)) as H0. pose proof (H 1%nat ltac:(lia)) as H1. pose proof (H 2%nat ltac:(lia)) as H2. pose proof (H 3%nat ltac:(lia)) as H3.
  rewrite Nat.add_0_r, Nat.add_0_r in H0. replace (n + 1)%nat with (S n) in H1 by lia. replace (n' + 1)%nat with (S n') in H1 by lia.
  replace (n + 2)%nat with (S (S n)) in H2 by lia. replace (n' + 2)%nat with (S (S n')) in H2 by lia.
  replace (n + 3)%nat with (S (S (S n))) in H3 by lia. replace (n' + 3)%nat with (S (S (S n'))) in H3 by lia.
  rewrite <- H3, <- H2, <- H1, <- H0. set (s := at_ enc_step enc_init i n). set (s' := at_ enc_step enc_init i' n').
  unfold enc_step. cbv zeta. cbn [e_d e_n1d e_qm e_qmr e_n0 e_n1 e_cnt e_c1 e_c2 e_c3 e_de1 e_de2 e_de3 e_out]. rewrite D. cbn [enc_final fst snd]. reflexivity.
Qed.
Lemma enc_repeats : forall i per a, ei_de (i a) = false -> (forall n, (a <= n)%nat -> i (n + per)%nat = i n) ->
  forall n, (a + 4 <= n)%nat -> enc_at i (n + per) = enc_at i n.
Proof.
  intros i per a D P n N. induction N as [|n N IH].
  - replace (a + 4 + per)%nat with (a + per + 4)%nat by lia. apply enc_forget; [|rewrite P by lia; exact D].
    intros j J. replace (a + per + j)%nat with (a + j + per)%nat by lia. apply P. lia.
  - unfold enc_at in *. cbn [at_ plus]. rewrite IH, P by lia. reflexivity.
Qed.

Section Playback.
Variable p : fparam.
Hypothesis lk : link_ok p.
Let HV := Z.to_nat ((p_vscan p + 1) * (p_hscan p + 1)).
Let NP := Z.to_nat (p_hres p * p_vres p).
(** The signal of a transmitter in rgb mode that shows the picture [F] over and over. *)
Definition shows_picture (F : nat -> Z) : nat -> px := tx_stream p (fun q => F (q mod Z.to_nat (p_hres p * p_vres p))%nat).
Variable F : nat -> Z.
Let P := shows_picture F.

Lemma np_pos : (0 < NP)%nat.
Proof. unfold NP. destruct lk. assert (0 < p_hres p * p_vres p) by nia. lia. Qed.
Lemma hv_big : Z.of_nat HV = (p_vscan p + 1) * (p_hscan p + 1) /\ Z.of_nat HV >= p_hres p + 30.
Proof.
  assert (Q : (p_vscan p + 1) * (p_hscan p + 1) >= p_hres p + 30) by (destruct lk as [ok ? ? ? ? ?]; destruct ok; nia).
  assert (0 <= p_hres p) by (destruct lk; lia). unfold HV. rewrite Z2Nat.id by lia. split; [reflexivity|exact Q].
Qed.
Lemma picture_repeats : forall n, (1 <= n)%nat -> P (n + HV)%nat = P n.
Proof.
  intros n N. pose proof (lk_ok p lk) as ok. unfold P, shows_picture. set (w := fun q => F (q mod Z.to_nat (p_hres p * p_vres p))%nat).
  assert (HVE : HV = Z.to_nat (1 * ((p_vscan p + 1) * (p_hscan p + 1)))) by (unfold HV; rewrite Z.mul_1_l; reflexivity).
  destruct (later_scan p lk 1 ltac:(lia) n N) as (A & B & C). cbv zeta in A, B, C. rewrite <- HVE in A, B, C.
  pose proof (later_pixels p lk 1 ltac:(lia) (n - 1)) as PX. rewrite <- HVE in PX.
  assert (WE : w (pixels_before p (n + HV - 1)) = w (pixels_before p (n - 1))).
  { unfold w. fold NP. f_equal. replace (n + HV - 1)%nat with (n - 1 + HV)%nat by lia.
    assert (Q : pixels_before p (n - 1 + HV) = (pixels_before p (n - 1) + 1 * NP)%nat).
    { apply Nat2Z.inj. rewrite PX, Nat2Z.inj_add, Nat2Z.inj_mul. unfold NP. rewrite Z2Nat.id by (destruct lk; nia). lia. }
    rewrite Q. apply Nat.mod_add. pose proof np_pos. lia. }
  destruct (tx_stream_rgb p ok w (n + HV)) as (R1 & G1 & B1). destruct (tx_stream_rgb p ok w n) as (R2 & G2 & B2). cbv zeta in R1, G1, B1. rewrite WE in R1, G1, B1.
  pose proof (tx_stream_de p ok w (n + HV)) as D1. pose proof (tx_stream_de p ok w n) as D2.
  pose proof (tx_stream_hs p ok w (n + HV)) as E1. pose proof (tx_stream_hs p ok w n) as E2.
  pose proof (tx_stream_vs p ok w (n + HV)) as V1. pose proof (tx_stream_vs p ok w n) as V2.
  destruct (tx_stream p w (n + HV)) as [r1 g1 b1 h1 v1 d1], (tx_stream p w n) as [r2 g2 b2 h2 v2 d2]. cbn [px_r px_g px_b px_de px_hs px_vs] in *. subst. rewrite A, B, C. reflexivity.
Qed.
Lemma words_repeat : forall k j n, (HV <= n)%nat -> tx_word P k (n + j * HV) = tx_word P k n.
Proof.
  intros k j n N. pose proof hv_big as [_ HB]. assert (HR : 0 <= p_hres p) by (destruct lk; lia). pose proof (lk_ok p lk) as ok.
  induction j as [|j IH]; [f_equal; lia|]. rewrite <- IH. unfold tx_word.
  replace (S (n + S j * HV)) with (S (n + j * HV) + HV)%nat by lia. f_equal.
  apply (enc_repeats (fun t => phy_char k (P t)) HV (S (Z.to_nat (p_hres p)))).
  - assert (D : px_de (P (S (Z.to_nat (p_hres p)))) = false).
    { unfold P, shows_picture. rewrite tx_stream_de by exact ok. replace (S (Z.to_nat (p_hres p))) with (clk p 0 0 (p_hres p)) by (unfold clk; lia).
      rewrite clk_de by (try exact lk; destruct lk, ok; lia). rewrite Z.ltb_irrefl. reflexivity. }
    destruct k as [|[|k]]; exact D.
  - intros m M. rewrite picture_repeats by lia. reflexivity.
  - lia.
Qed.
End Playback.

(** The words of serialiser [k]. *)
Definition channel_of (x : Z * Z * Z) (k : nat) : Z := match k with O => fst (fst x) | S O => snd (fst x) | _ => snd x end.

(** The signal of a transmitter that shows a picture is periodic, so one frame of its words
    can be recorded.  The first word, which may be any word in blanking, is left out, because
    of the gap.  In raw mode, with such a memory, the serialisers get exactly what the
    transmitter sends, for ever, but for one word in every frame. *)
Theorem C118_playback :
  forall shift aw depth mem ra (i : nat -> ot_in), 0 <= aw -> length mem = 4%nat ->
  forall u R t0, raw_enabled shift aw depth mem ra i u R t0 -> params_ok (timing_of R) ->
  forall E, clocks i ((p_hscan (timing_of R) + 1) * (p_vscan (timing_of R) + 1)) E -> (forall x, ot_ready (i x) = true) ->
  let st := rt_run shift aw depth mem ra i in
  let n0 := occurrences (fun x => ot_cd (i x)) 0 t0 in
  (forall n, (n0 <= n)%nat -> ot_mem (i (E n)) = true /\ ot_ret (i (E n)) = true) -> (2 <= depth)%nat ->
  forall (p : fparam) (F : nat -> Z) (M : Z -> Z) (rec : nat),
  params_ok p -> 24 <= p_hres p -> p_hres p + 30 <= p_hscan p + 1 -> 1 <= p_vres p <= p_vscan p ->
  p_hres p < p_hs_start p -> p_vres p <= p_vs_start p < p_vs_end p ->
  let frame := (p_vscan p + 1) * (p_hscan p + 1) in
  nth 9 R 0 / 2 ^ shift = frame - 1 -> frame <= 2 ^ aw -> frame <= Z.of_nat rec ->
  (forall q k, Z.of_nat q < frame - 1 -> (k < 3)%nat -> raw_word (M (buffer_word shift aw R (Z.of_nat q))) (Z.of_nat k) = tx_word (shows_picture p F) k (rec + 1 + q)) ->
  forall j, Z.of_nat j mod frame <> 0 -> let n := (n0 + 1 + j)%nat in
  forall junk k, (k < 3)%nat ->
  channel_of (rt_words shift aw M junk (st (E n)) (i (E n))) k = tx_word (shows_picture p F) k (rec + j).
Proof.
  intros shift aw depth mem ra i Haw HM u R t0 Hon ok E HE Hready st n0 Hid Hd p F M rec K1 K2 K3 K4 K5 K6 frame Hl Hf Hrec Hbuf j J n junk k K.
  assert (lk : link_ok p) by (constructor; assumption).
  pose proof (hv_big p lk) as [HB HB2]. fold frame in HB. set (HV := Z.to_nat ((p_vscan p + 1) * (p_hscan p + 1))) in *.
  set (a := Z.of_nat j / frame). set (r := Z.of_nat j mod frame).
  pose proof (Z.div_mod (Z.of_nat j) frame ltac:(lia)) as DM. fold a r in DM. pose proof (Z.mod_pos_bound (Z.of_nat j) frame ltac:(lia)) as MB. fold r in MB.
  assert (A : 0 <= a) by (apply Z.div_pos; lia).
  pose proof (C118_every_pass shift aw depth mem ra i Haw HM u R t0 Hon ok ltac:(rewrite Hl; lia) E HE Hready Hid Hd a r A ltac:(rewrite Hl; lia)) as [_ W].
  cbv zeta in W. rewrite Hl in W. specialize (W J M junk).
  replace (n0 + Z.to_nat (1 + a * (frame - 1 + 1) + r))%nat with n in W by (unfold n; rewrite (Z.mul_comm a); replace (frame - 1 + 1) with frame by lia; lia).
  fold n0 st in W. replace (n0 + Z.to_nat (1 + a * (frame - 1 + 1) + r))%nat with n in W by (unfold n; rewrite (Z.mul_comm a); replace (frame - 1 + 1) with frame by lia; lia).
  rewrite W. clear W.
  set (q := Z.to_nat (r - 1)). assert (QZ : Z.of_nat q = r - 1) by (unfold q; fold r in J; lia).
  assert (TW : tx_word (shows_picture p F) k (rec + j) = tx_word (shows_picture p F) k (rec + 1 + q)).
  { rewrite <- (words_repeat p lk F k (Z.to_nat a) (rec + 1 + q)) by (fold HV; lia). fold HV. f_equal.
    assert (X : Z.of_nat (Z.to_nat a * HV) = frame * a) by (unfold HV; rewrite Nat2Z.inj_mul, !Z2Nat.id by lia; unfold frame; ring). lia. }
  rewrite TW, <- (Hbuf q k) by lia. rewrite QZ. destruct k as [|[|[|k]]]; [reflexivity|reflexivity|reflexivity|lia].
Qed.
Print Assumptions C118_playback.

(** Such a buffer exists for every picture. *)
Lemma recordable : forall shift aw R (p : fparam) (F : nat -> Z) (rec : nat), params_ok p -> 0 <= aw ->
  let frame := (p_vscan p + 1) * (p_hscan p + 1) in frame <= 2 ^ aw ->
  exists M, forall q k, Z.of_nat q < frame - 1 -> (k < 3)%nat ->
  raw_word (M (buffer_word shift aw R (Z.of_nat q))) (Z.of_nat k) = tx_word (shows_picture p F) k (rec + 1 + q).
Proof.
  intros shift aw R p F rec ok Haw frame Hf. set (w := fun k q => tx_word (shows_picture p F) k (rec + 1 + q)).
  assert (RNG : forall k q, 0 <= w k q < 1024).
  { intros k q. apply legal_range. apply (tx_words_legal (fun t => phy_char k (shows_picture p F t))). intros n. apply phy_char_ok. apply (tx_px_ok p ok). }
  exists (fun a => let q := Z.to_nat ((a - nth 8 R 0 / 2 ^ shift) mod 2 ^ aw) in w 0%nat q + 2 ^ 10 * w 1%nat q + 2 ^ 20 * w 2%nat q).
  intros q k Q K. cbv beta zeta. fold (w k q).
  assert (EQ : Z.to_nat ((buffer_word shift aw R (Z.of_nat q) - nth 8 R 0 / 2 ^ shift) mod 2 ^ aw) = q).
  { unfold buffer_word. rewrite Zminus_mod_idemp_l. replace (nth 8 R 0 / 2 ^ shift + Z.of_nat q - nth 8 R 0 / 2 ^ shift) with (Z.of_nat q) by lia.
    rewrite Z.mod_small by lia. lia. }
  rewrite EQ. pose proof (RNG 0%nat q). pose proof (RNG 1%nat q). pose proof (RNG 2%nat q). unfold raw_word.
  destruct k as [|[|[|k]]]; [| | |lia].
  - change (2 ^ (10 * Z.of_nat 0)) with 1. rewrite Z.div_1_r. change (2 ^ 10) with 1024. change (2 ^ 20) with (1024 * 1024).
    symmetry. apply (Z.mod_unique _ _ (w 1%nat q + 1024 * w 2%nat q)); [left; lia|ring].
  - change (2 ^ (10 * Z.of_nat 1)) with 1024. change (2 ^ 10) with 1024. change (2 ^ 20) with (1024 * 1024).
    replace (w 0%nat q + 1024 * w 1%nat q + 1024 * 1024 * w 2%nat q) with (w 0%nat q + (w 1%nat q + 1024 * w 2%nat q) * 1024) by ring.
    rewrite Z.div_add, (Z.div_small (w 0%nat q)) by lia. symmetry. apply (Z.mod_unique _ _ (w 2%nat q)); [left; lia|ring].
  - change (2 ^ (10 * Z.of_nat 2)) with (1024 * 1024). change (2 ^ 10) with 1024. change (2 ^ 20) with (1024 * 1024).
    replace (w 0%nat q + 1024 * w 1%nat q + 1024 * 1024 * w 2%nat q) with (w 0%nat q + 1024 * w 1%nat q + w 2%nat q * (1024 * 1024)) by ring.
    rewrite Z.div_add, (Z.div_small (w 0%nat q + 1024 * w 1%nat q)) by lia. apply Z.mod_small. lia.
Qed.

(** *** The hypotheses are met: the mode of OutTopProps.v, with a buffer of 279 of the
    280 words of its frame, ready memory, and one clock. *)
Definition ex_rt_regs : list Z := [24; 30; 40; 55; 2; 3; 4; 4; 400; 1116].
Definition ex_rt_in (t : nat) : ot_in :=
  {| ot_sys := true; ot_cd := true;
     ot_sw := if (t <? 10)%nat then IwField t (nth t ex_rt_regs 0) else if Nat.eqb t 10 then IwEnable true else IwNone;
     ot_mem := true; ot_ret := true; ot_ready := true; ot_mp := 0; ot_mc := 5 |}.
Definition ex_rt (t : nat) : ot_st := rt_run 2 12 8 (repeat [] 4) 0 ex_rt_in t.

Example ex_rt_on : raw_enabled 2 12 8 (repeat [] 4) 0 ex_rt_in 11 ex_rt_regs 14.
Proof.
  assert (AFT : forall t, (11 <= t)%nat -> ini_en (ot_ini (ex_rt t)) = true /\ ini_regs (ot_ini (ex_rt t)) = ex_rt_regs).
  { intros t T. induction T as [|t T (A & B)]; [vm_compute; auto|].
    change (ex_rt (S t)) with (rt_step 2 12 8 (ex_rt t) (ex_rt_in t)). unfold rt_step. cbv zeta. cbn [ot_ini]. unfold ini_step. cbv zeta.
    cbn [ini_en ini_regs ot_ini_in ini_sys ini_sw ex_rt_in ot_sys ot_sw].
    replace (t <? 10)%nat with false by (symmetry; apply Nat.ltb_ge; lia). replace (Nat.eqb t 10) with false by (symmetry; apply Nat.eqb_neq; lia).
    cbn [ini_write fst snd]. auto. }
  split; [|split; [|split]].
  - intros x. destruct (Nat.leb_spec 11 x) as [X|X]; [apply AFT; exact X|].
    assert (Q : forallb (fun x => negb (ini_en (ot_ini (ex_rt x)))) (seq 0 11) = true) by (vm_compute; reflexivity).
    rewrite forallb_forall in Q. apply negb_true_iff, Q, in_seq. lia.
  - intros x X. apply AFT. exact X.
  - vm_compute. discriminate.
  - intros x X. assert (Q : forallb (fun x => match ini_out (ot_ini (ex_rt x)) with None => true | _ => false end) (seq 0 14) = true) by (vm_compute; reflexivity).
    rewrite forallb_forall in Q. specialize (Q x). fold (ex_rt x). destruct (ini_out (ot_ini (ex_rt x))); [|reflexivity].
    assert (false = true) by (apply Q, in_seq; lia). discriminate.
Qed.
Example ex_rt_hyps : params_ok (timing_of ex_rt_regs) /\ nth 9 ex_rt_regs 0 / 2 ^ 2 = 280 - 1 /\ timing_of ex_rt_regs = ex_mode /\ link_ok ex_mode /\
  (p_vscan ex_mode + 1) * (p_hscan ex_mode + 1) = 280 /\ 280 <= 2 ^ 12 /\
  clocks ex_rt_in ((p_hscan ex_mode + 1) * (p_vscan ex_mode + 1)) (fun n => n).
Proof.
  destruct ex_mode_ok as [ok lk]. split; [exact ok|]. split; [reflexivity|]. split; [reflexivity|]. split; [constructor; vm_compute; intuition congruence|].
  split; [reflexivity|]. split; [vm_compute; discriminate|].
  split; [intros n; split; [reflexivity|apply all_edges]|]. intros a b AB H.
  change (fun x => ot_cd (ex_rt_in x)) with (fun _ : nat => true) in H. change (fun x => ot_sys (ex_rt_in x)) with (fun _ : nat => true).
  rewrite all_edges in *. cbn in H. lia.
Qed.
(** The first clock of a pass has no word, the second has the first word of the buffer. *)
Example ex_rt_pass : ot_dv 2 12 (ex_rt 15) (ex_rt_in 15) = false /\
  rt_words 2 12 (fun a => a * (1 + 2 ^ 10 + 2 ^ 20)) 0 (ex_rt 16) (ex_rt_in 16) = (100, 100, 100).
Proof. vm_compute. auto. Qed.
