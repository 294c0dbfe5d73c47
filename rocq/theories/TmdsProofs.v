(** Lemmas about the TMDS encoder and decoder. *)
From Coq Require Import ZArith List Bool Lia.
From Verif Require Import Hdl TmdsModel TmdsSpec.
Import ListNotations.
Open Scope Z_scope.

Definition to_char (x : enc_in) : tmds_char :=
  if ei_de x then Pixel (ei_d x) else Control (ei_c x).

Definition enc_in_ok (x : enc_in) : Prop := 0 <= ei_d x < 256 /\ 0 <= ei_c x < 4.

Definition disps : list Z := [-8; -6; -4; -2; 0; 2; 4; 6; 8].

Definition list_eqb (a b : list bool) : bool :=
  if list_eq_dec Bool.bool_dec a b then true else false.

(** Everything that is needed about one pixel, decided for all bytes and all
    reachable disparities. *)
Definition chk_pixel (d cnt : Z) : bool :=
  let qm := enc_qm_next d (ones8 d) in
  let m := enc_final true 0 cnt qm (zeros8 qm) (ones8 qm) in
  let r := dvi_pixel d cnt in
  let w := of_bits (fst r) in
  (fst m =? w) && (snd m =? snd r)
  && existsb (Z.eqb (snd r)) disps
  && (snd r =? cnt + disparity (fst r))
  && (transitions (fst r) <=? 5)
  && (transitions (firstn 9 (fst r)) <=? 4)
  && list_eqb (to_bits 10 w) (fst r)
  && fst (dec_ctl w 0) && (dec_data w =? d)
  && forallb (fun c => negb (w =? of_bits (dvi_control c))) [0;1;2;3].

Lemma chk_pixel_all :
  forallb (fun d => forallb (chk_pixel d) disps) (zrange 0 256) = true.
Proof. vm_compute. reflexivity. Qed.

Lemma chk_pixel_ok : forall d cnt, 0 <= d < 256 -> In cnt disps -> chk_pixel d cnt = true.
Proof.
  intros d cnt Hd Hc.
  assert (H := forallb_zrange _ _ _ chk_pixel_all d ltac:(lia)). cbv beta in H.
  rewrite forallb_forall in H. apply H, Hc.
Qed.

Lemma dec_ctl_true_indep : forall w c c', fst (dec_ctl w c) = fst (dec_ctl w c').
Proof.
  intros. unfold dec_ctl, control_tokens; cbn [combine fold_left fst snd].
  repeat match goal with |- context [w =? ?k] => destruct (w =? k) end; reflexivity.
Qed.

Record pixel_facts (d cnt : Z) : Prop := {
  pf_final : enc_final true 0 cnt (enc_qm_next d (ones8 d))
               (zeros8 (enc_qm_next d (ones8 d))) (ones8 (enc_qm_next d (ones8 d)))
             = (of_bits (fst (dvi_pixel d cnt)), snd (dvi_pixel d cnt));
  pf_disps : In (snd (dvi_pixel d cnt)) disps;
  pf_disp : snd (dvi_pixel d cnt) = cnt + disparity (fst (dvi_pixel d cnt));
  pf_tr : transitions (fst (dvi_pixel d cnt)) <= 5;
  pf_tr9 : transitions (firstn 9 (fst (dvi_pixel d cnt))) <= 4;
  pf_bits : to_bits 10 (of_bits (fst (dvi_pixel d cnt))) = fst (dvi_pixel d cnt);
  pf_de : forall c, fst (dec_ctl (of_bits (fst (dvi_pixel d cnt))) c) = true;
  pf_dec : dec_data (of_bits (fst (dvi_pixel d cnt))) = d;
  pf_ctl : forall c, 0 <= c < 4 -> of_bits (fst (dvi_pixel d cnt)) <> of_bits (dvi_control c)
}.

Lemma pixel_ok : forall d cnt, 0 <= d < 256 -> In cnt disps -> pixel_facts d cnt.
Proof.
  intros d cnt Hd Hc. pose proof (chk_pixel_ok d cnt Hd Hc) as H.
  unfold chk_pixel in H; cbv zeta in H.
  repeat rewrite andb_true_iff in H.
  destruct H as [[[[[[[[[H1 H2] H3] H4] H5] H6] H7] H8] H9] H10].
  split.
  - apply Z.eqb_eq in H1, H2. rewrite <- H1, <- H2. apply surjective_pairing.
  - apply existsb_exists in H3. destruct H3 as (x & Hx & E). apply Z.eqb_eq in E. rewrite E; exact Hx.
  - apply Z.eqb_eq, H4.
  - apply Z.leb_le, H5.
  - apply Z.leb_le, H6.
  - unfold list_eqb in H7. destruct list_eq_dec in H7; [assumption|discriminate].
  - intros c. rewrite (dec_ctl_true_indep _ c 0). exact H8.
  - apply Z.eqb_eq, H9.
  - intros c Hc4 E. rewrite forallb_forall in H10.
    assert (In c [0;1;2;3]) by (simpl; lia).
    specialize (H10 c H). rewrite E, Z.eqb_refl in H10. discriminate.
Qed.

Lemma enc_final_c_irrel : forall c c' cnt q a b,
  enc_final true c cnt q a b = enc_final true c' cnt q a b.
Proof. reflexivity. Qed.

Lemma control_ok : forall c, 0 <= c < 4 ->
  nth (Z.to_nat c) enc_tokens 683 = of_bits (dvi_control c)
  /\ to_bits 10 (of_bits (dvi_control c)) = dvi_control c
  /\ transitions (dvi_control c) >= 7
  /\ transitions (firstn 9 (dvi_control c)) = 7
  /\ (forall x, dec_ctl (of_bits (dvi_control c)) x = (false, c)).
Proof.
  intros c Hc. assert (c = 0 \/ c = 1 \/ c = 2 \/ c = 3) as [->|[->|[->| ->]]] by lia;
    vm_compute; intuition (reflexivity || congruence).
Qed.

(** ** Pipeline *)

Section Stream.
Variable i : nat -> enc_in.
Hypothesis Hi : forall n, enc_in_ok (i n).
Let xs := fun n => to_char (i n).

Lemma enc_stage3 : forall n,
  let s := enc_at i (n + 3) in
  let qm := enc_qm_next (ei_d (i n)) (ones8 (ei_d (i n))) in
  e_qmr s = qm /\ e_n0 s = zeros8 qm /\ e_n1 s = ones8 qm /\
  e_c3 s = ei_c (i n) /\ e_de3 s = ei_de (i n).
Proof.
  intros n; cbv zeta. replace (n + 3)%nat with (S (S (S n))) by lia.
  unfold enc_at; cbn [at_ enc_step e_qmr e_n0 e_n1 e_c3 e_de3 e_qm e_d e_n1d e_c2 e_c1 e_de2 e_de1].
  repeat split; reflexivity.
Qed.

Lemma dvi_cnt_disps : forall n, In (dvi_cnt xs n) disps.
Proof.
  induction n as [|n IH]; [simpl; tauto|].
  cbn [dvi_cnt]. revert IH; generalize (dvi_cnt xs n); intros cnt IH. unfold xs, to_char.
  destruct (ei_de (i n)); cbn [dvi_encode snd]; [|simpl; tauto].
  apply pf_disps, pixel_ok; [apply Hi|exact IH].
Qed.

Lemma enc_sim_aux : forall n,
  e_cnt (enc_at i (n + 3)) = dvi_cnt xs n ->
  e_cnt (enc_at i (n + 4)) = dvi_cnt xs (S n) /\
  e_out (enc_at i (n + 4)) = of_bits (dvi_word xs n).
Proof.
  intros n Hc. replace (n + 4)%nat with (S (n + 3)) by lia.
  destruct (enc_stage3 n) as (H1 & H2 & H3 & H4 & H5).
  unfold enc_at in *; cbn [at_]; unfold enc_step at 1 3; cbn [e_cnt e_out].
  rewrite H1, H2, H3, H4, H5, Hc.
  unfold dvi_word; cbn [dvi_cnt].
  pose proof (dvi_cnt_disps n) as Hds. revert Hds.
  generalize (dvi_cnt xs n); intros cnt Hds.
  unfold xs, to_char. destruct (Hi n) as [Hd Hcc].
  destruct (ei_de (i n)); cbn [dvi_encode].
  - rewrite (enc_final_c_irrel _ 0).
    rewrite (pf_final _ _ (pixel_ok _ _ Hd Hds)). split; reflexivity.
  - unfold enc_final. cbn [fst snd]. split; [reflexivity|]. apply control_ok, Hcc.
Qed.

Lemma enc_cnt_sim : forall n, e_cnt (enc_at i (n + 3)) = dvi_cnt xs n.
Proof.
  induction n as [|n IH].
  - reflexivity.
  - replace (S n + 3)%nat with (n + 4)%nat by lia. apply enc_sim_aux, IH.
Qed.

Lemma enc_out_sim : forall n, e_out (enc_at i (n + 4)) = of_bits (dvi_word xs n).
Proof. intros n. apply enc_sim_aux, enc_cnt_sim. Qed.

Lemma dvi_word_bits : forall n, to_bits 10 (of_bits (dvi_word xs n)) = dvi_word xs n.
Proof.
  intros n. unfold dvi_word. pose proof (dvi_cnt_disps n) as Hds. revert Hds.
  generalize (dvi_cnt xs n); intros cnt Hds. unfold xs, to_char.
  destruct (Hi n) as [Hd Hcc].
  destruct (ei_de (i n)); cbn [dvi_encode fst].
  - apply pf_bits, pixel_ok; assumption.
  - apply control_ok, Hcc.
Qed.

Lemma enc_out_bits : forall n, to_bits 10 (e_out (enc_at i (n + 4))) = dvi_word xs n.
Proof. intros n. rewrite enc_out_sim. apply dvi_word_bits. Qed.

Lemma running_is_cnt : forall n, running_disparity xs (dvi_word xs) n = dvi_cnt xs n.
Proof.
  induction n as [|n IH]; [reflexivity|].
  cbn [running_disparity dvi_cnt]. unfold dvi_word at 2.
  pose proof (dvi_cnt_disps n) as Hcs. pose proof (proj1 (Hi n)) as Hd.
  rewrite IH. revert Hcs. generalize (dvi_cnt xs n). intros cnt Hcs.
  unfold xs, to_char. destruct (ei_de (i n)); cbn [dvi_encode fst snd]; [|reflexivity].
  symmetry. apply pf_disp, pixel_ok; assumption.
Qed.

Lemma disps_bound : forall x, In x disps -> -8 <= x <= 8.
Proof. intros x H. simpl in H. lia. Qed.

End Stream.

Lemma running_ext : forall xs w w', (forall n, w n = w' n) ->
  forall n, running_disparity xs w n = running_disparity xs w' n.
Proof.
  intros xs w w' H n. induction n as [|n IH]; [reflexivity|].
  cbn [running_disparity]. rewrite IH, H. reflexivity.
Qed.

(** ** Decoder *)

Lemma dec_step_at : forall i n, dec_at i (S n) = dec_step (dec_at i n) (i n).
Proof. reflexivity. Qed.

Lemma loopback : forall (i : nat -> enc_in), (forall n, enc_in_ok (i n)) ->
  forall (v : nat -> bool) n,
  let o := dec_at (fun k => {| di_valid := v k; di_word := e_out (enc_at i k) |}) (n + 5) in
  d_de o = ei_de (i n) /\
  (ei_de (i n) = true -> d_d o = ei_d (i n)) /\
  (ei_de (i n) = false -> d_c o = ei_c (i n)).
Proof.
  intros i Hi v n. cbv zeta. replace (n + 5)%nat with (S (n + 4)) by lia.
  rewrite dec_step_at. unfold dec_step; cbn [d_de d_d d_c di_word].
  rewrite (enc_out_sim i Hi n). unfold dvi_word, to_char.
  pose proof (dvi_cnt_disps i Hi n) as Hc.
  unfold to_char in Hc.
  set (cnt := dvi_cnt _ n) in *. destruct (Hi n) as [Hd Hcc].
  destruct (ei_de (i n)); cbn [dvi_encode fst].
  - destruct (pixel_ok _ _ Hd Hc). repeat split; auto; discriminate.
  - destruct (control_ok _ Hcc) as (_ & _ & _ & _ & E). rewrite E.
    repeat split; cbn; auto; discriminate.
Qed.

Lemma dec_data_all :
  forallb (fun w => dec_data w =? of_bits (dvi_decode (to_bits 10 w))) (zrange 0 1024) = true.
Proof. vm_compute. reflexivity. Qed.

Lemma dec_ctl_find : forall w c,
  dec_ctl w c = match find (fun c => w =? of_bits (dvi_control c)) [0; 1; 2; 3] with
                | Some k => (false, k) | None => (true, c) end.
Proof.
  intros w c. unfold dec_ctl, control_tokens; cbn [combine fold_left fst snd find].
  change (of_bits (dvi_control 0)) with 852. change (of_bits (dvi_control 1)) with 171.
  change (of_bits (dvi_control 2)) with 340. change (of_bits (dvi_control 3)) with 683.
  destruct (Z.eqb_spec w 852); [subst; reflexivity|].
  destruct (Z.eqb_spec w 171); [subst; reflexivity|].
  destruct (Z.eqb_spec w 340); [subst; reflexivity|].
  destruct (Z.eqb_spec w 683); reflexivity.
Qed.

Lemma find_control : forall w,
  (exists k, find (fun c => w =? of_bits (dvi_control c)) [0; 1; 2; 3] = Some k) <-> legal_control w.
Proof.
  intros w; split.
  - intros (k & H). apply find_some in H. destruct H as [Hin E]. apply Z.eqb_eq in E.
    exists k. split; [simpl in Hin; lia|exact E].
  - intros (c & Hc & E). destruct (find _ _) eqn:F; [eauto|].
    assert (Hin : In c [0;1;2;3]) by (simpl; lia).
    pose proof (find_none _ _ F c Hin) as N. cbv beta in N. rewrite E, Z.eqb_refl in N. discriminate.
Qed.

Lemma decoding_exact : forall i n, 0 <= di_word (i n) < 1024 ->
  let o := dec_at i (S n) in
  d_valid o = di_valid (i n) /\ d_raw o = di_word (i n) /\
  (d_de o = false <-> legal_control (di_word (i n))) /\
  d_d o = of_bits (dvi_decode (to_bits 10 (di_word (i n)))).
Proof.
  intros i n Hw. cbv zeta. rewrite dec_step_at. unfold dec_step; cbn [d_valid d_raw d_de d_d].
  repeat split.
  - rewrite dec_ctl_find. rewrite <- find_control. destruct (find _ _); cbn; [eauto|discriminate].
  - rewrite dec_ctl_find. rewrite <- find_control. intros (k & ->). reflexivity.
  - apply Z.eqb_eq. apply (forallb_zrange _ _ _ dec_data_all). simpl; lia.
Qed.

Lemma decoding_last_control : forall i n,
  d_c (dec_at i n) = last_control (fun k => di_word (i k)) n.
Proof.
  intros i n. induction n as [|n IH]; [reflexivity|].
  rewrite dec_step_at. unfold dec_step; cbn [d_c last_control].
  rewrite dec_ctl_find. destruct (find _ _); [reflexivity|]. exact IH.
Qed.

(** ** Legal words *)

Lemma dvi_pixel_sgn : forall d cnt, fst (dvi_pixel d cnt) = fst (dvi_pixel d (Z.sgn cnt)).
Proof.
  intros d cnt. unfold dvi_pixel.
  destruct cnt as [|p|p]; cbn [Z.sgn Z.eqb]; try reflexivity.
  - replace (0 <? Z.pos p) with true by (symmetry; apply Z.ltb_lt; lia).
    replace (Z.pos p <? 0) with false by (symmetry; apply Z.ltb_ge; lia).
    cbn [orb andb]. 
    change (0 <? 1) with true. change (1 <? 0) with false. cbn [orb andb].
    repeat match goal with |- context [if ?b then _ else _] => destruct b end; reflexivity.
  - replace (0 <? Z.neg p) with false by (symmetry; apply Z.ltb_ge; lia).
    replace (Z.neg p <? 0) with true by (symmetry; apply Z.ltb_lt; lia).
    change (0 <? -1) with false. change (-1 <? 0) with true. cbn [orb andb].
    repeat match goal with |- context [if ?b then _ else _] => destruct b end; reflexivity.
Qed.

(** All words of [legal_pixel], with repetitions. *)
Definition pixel_words : list Z :=
  flat_map (fun d => map (fun cnt => of_bits (fst (dvi_pixel d cnt))) [-1; 0; 1]) (zrange 0 256).

Lemma legal_pixel_in : forall w, legal_pixel w -> In w pixel_words.
Proof.
  intros w (d & cnt & Hd & ->). rewrite dvi_pixel_sgn.
  unfold pixel_words. apply in_flat_map. exists d. split.
  - apply in_zrange. simpl; lia.
  - apply in_map_iff. exists (Z.sgn cnt). split; [reflexivity|].
    destruct cnt; simpl; auto.
Qed.

Definition control_words : list Z := [852; 171; 340; 683].

Lemma legal_control_in : forall w, legal_control w <-> In w control_words.
Proof.
  intros w; split.
  - intros (c & Hc & ->). assert (c = 0 \/ c = 1 \/ c = 2 \/ c = 3) as [->|[->|[->| ->]]] by lia; vm_compute; auto.
  - intros H. unfold control_words in H; cbn [In] in H.
    destruct H as [<-|[<-|[<-|[<-|[]]]]].
    + exists 0; split; [lia|reflexivity].
    + exists 1; split; [lia|reflexivity].
    + exists 2; split; [lia|reflexivity].
    + exists 3; split; [lia|reflexivity].
Qed.

Definition memz (x : Z) (l : list Z) : bool := existsb (Z.eqb x) l.

Lemma memz_in : forall x l, memz x l = true <-> In x l.
Proof.
  intros x l. unfold memz. rewrite existsb_exists. split.
  - intros (y & Hy & E). apply Z.eqb_eq in E. subst; exact Hy.
  - intros H. exists x. split; [exact H|apply Z.eqb_refl].
Qed.

Lemma pixel_words_small :
  forallb (fun w => (0 <=? w) && (w <? 1024) && (transitions (to_bits 10 w) <=? 5)
                    && (transitions (to_bits 9 w) <=? 4) && negb (memz w control_words)) pixel_words = true.
Proof. vm_compute. reflexivity. Qed.

Lemma pixel_word_facts : forall w, legal_pixel w ->
  0 <= w < 1024 /\ transitions (to_bits 10 w) <= 5 /\ transitions (to_bits 9 w) <= 4 /\ ~ legal_control w.
Proof.
  intros w H. apply legal_pixel_in in H.
  pose proof pixel_words_small as A. rewrite forallb_forall in A. specialize (A w H).
  repeat rewrite andb_true_iff in A. destruct A as [[[[A1 A2] A3] A4] A5].
  repeat split; try lia.
  intros C. apply legal_control_in, memz_in in C. rewrite C in A5. discriminate.
Qed.

Lemma enc_out_legal : forall i, (forall n, enc_in_ok (i n)) -> forall n,
  (ei_de (i n) = true -> legal_pixel (e_out (enc_at i (n + 4)))) /\
  (ei_de (i n) = false -> legal_control (e_out (enc_at i (n + 4)))).
Proof.
  intros i Hi n. rewrite (enc_out_sim i Hi n). unfold dvi_word, to_char.
  destruct (Hi n) as [Hd Hc].
  destruct (ei_de (i n)); split; try discriminate; intros _; cbn [dvi_encode fst].
  - eexists; eexists; split; [exact Hd|reflexivity].
  - exists (ei_c (i n)). split; [exact Hc|reflexivity].
Qed.
