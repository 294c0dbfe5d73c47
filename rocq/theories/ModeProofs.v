(** Auxiliary lemmas for ModeProps: one clock of the output core when the parameter sets that follow
    one another may differ in everything. *)
From Coq Require Import ZArith List Bool Lia Arith.
From Verif Require Import Hdl Trace CdcProofs TimingModel TimingSpec TimingProofs VideoOutModel VideoOutProofs.
Import ListNotations.
Open Scope Z_scope.

Section Mode.
Variables (aw : Z) (depth : nat).
Hypothesis Haw : 0 <= aw.

(** A set that describes a mode and a picture of its size, larger than the reader's buffer. *)
Record good (v : vparam) : Prop := {
  g_ok : params_ok (vp_t v); g_hres : 0 < p_hres (vp_t v); g_vres : 0 < p_vres (vp_t v);
  g_hs : 0 < p_hs_start (vp_t v); g_vs : 0 < p_vs_start (vp_t v);
  g_len : vp_length v = p_hres (vp_t v) * p_vres (vp_t v);
  g_aw : vp_length v <= 2 ^ aw; g_depth : Z.of_nat depth < vp_length v
}.
Definition frame_size (v : vparam) : nat := Z.to_nat ((p_hscan (vp_t v) + 1) * (p_vscan (vp_t v) + 1)).

(** Where the output is: transfers since the frame began, words of its picture that had been
    requested with the set before, and the address in that set. *)
Record fr_st := { fr_pos : nat; fr_torn : nat; fr_prev : Z }.
Definition fr_step (g : fr_st) (v : vparam) (xfer : bool) (len' : nat) : fr_st :=
  if xfer then
    if (fr_pos g =? frame_size v)%nat then {| fr_pos := 1; fr_torn := len'; fr_prev := vp_base v |}
    else {| fr_pos := S (fr_pos g); fr_torn := fr_torn g; fr_prev := fr_prev g |}
  else g.
(** Word [w] of the stream of a frame and the pictures after it. *)
Definition word (g : fr_st) (v : vparam) (w : nat) : Z :=
  trunc aw ((if (w <? fr_torn g)%nat then fr_prev g else vp_base v) + Z.of_nat w mod vp_length v).
Definition shown (g : fr_st) (v : vparam) : nat := pixels_before (vp_t v) (fr_pos g - 1).
Record core_inv (g : fr_st) (v : vparam) (s : vt_st) : Prop := {
  ci_pos : (fr_pos g <= frame_size v)%nat;
  ci_tg : vt_tg s = tg_at (vp_t v) (Z.of_nat (fr_pos g));
  ci_dr : dr_rel (vp_length v) (vt_dr s) (Z.of_nat (shown g v + length (vt_reads s)));
  ci_reads : vt_reads s = map (word g v) (seq (shown g v) (length (vt_reads s)));
  ci_depth : (length (vt_reads s) <= depth)%nat;
  ci_torn : (fr_torn g <= depth)%nat;
  ci_past : (fr_torn g <= shown g v + length (vt_reads s))%nat
}.

Lemma frame_size_pos : forall v, good v -> (4 <= frame_size v)%nat /\ Z.of_nat (frame_size v) = (p_hscan (vp_t v) + 1) * (p_vscan (vp_t v) + 1).
Proof.
  intros v [ok H1 H2 _ _ _ _ _]. destruct ok. unfold frame_size.
  assert (4 <= (p_hscan (vp_t v) + 1) * (p_vscan (vp_t v) + 1)) by nia. lia.
Qed.
Lemma pixels_frame : forall v, good v -> Z.of_nat (pixels_before (vp_t v) (frame_size v)) = vp_length v.
Proof.
  intros v G. destruct (frame_size_pos v G) as [_ FS]. destruct G as [ok H1 H2 _ _ HL _ _]. rewrite (pixels_before_closed (vp_t v) ok). cbv zeta.
  rewrite FS, HL. set (p := vp_t v) in *. destruct ok. unfold scan_x, scan_y.
  replace ((p_hscan p + 1) * (p_vscan p + 1)) with (0 + (p_vscan p + 1) * (p_hscan p + 1)) by ring.
  rewrite Z.div_add, Z.mod_add by lia. rewrite Z.mod_0_l, Z.div_0_l by lia. cbn [Z.add].
  rewrite Z.mod_same, Z.div_same by lia. replace (0 <? p_vres p) with true by (symmetry; apply Z.ltb_lt; lia). rewrite Z.min_l by lia. lia.
Qed.
(** The first clock of a frame does not depend on the set. *)
Lemma tg_first : forall v v', good v -> good v' -> tg_at (vp_t v) (Z.of_nat (frame_size v) + 1) = tg_at (vp_t v') 1.
Proof.
  intros v v' G G'. destruct (frame_size_pos v G) as [F4 FS]. destruct (frame_size_pos v' G') as [F4' FS'].
  destruct G as [ok H1 H2 H3 H4 _ _ _]. destruct G' as [ok' H1' H2' H3' H4' _ _ _].
  set (p := vp_t v) in *. set (p' := vp_t v') in *. destruct ok, ok'.
  assert (X0 : forall q r, 0 <= p_hscan q -> 0 <= p_vscan q -> 0 <= r <= p_hscan q -> scan_x q (Z.of_nat 0 + r) = r /\ scan_y q (Z.of_nat 0 + r) = 0).
  { intros q r A B C. unfold scan_x, scan_y. cbn [Z.of_nat Z.add]. rewrite Z.mod_small, Z.div_small by lia. rewrite Z.mod_0_l by lia. auto. }
  assert (XF : forall r, 0 <= r <= p_hscan p -> scan_x p (Z.of_nat (frame_size v) + r) = r /\ scan_y p (Z.of_nat (frame_size v) + r) = 0).
  { intros r C. rewrite FS. unfold scan_x, scan_y. replace ((p_hscan p + 1) * (p_vscan p + 1) + r) with (r + (p_vscan p + 1) * (p_hscan p + 1)) by ring.
    rewrite Z.mod_add, Z.div_add by lia. rewrite Z.mod_small, Z.div_small by lia. cbn [Z.add]. rewrite Z.mod_same by lia. auto. }
  destruct (X0 p' 0 ltac:(lia) ltac:(lia) ltac:(lia)) as [A1 A2]. destruct (X0 p' 1 ltac:(lia) ltac:(lia) ltac:(lia)) as [A3 A4].
  destruct (XF 0 ltac:(lia)) as [B1 B2]. destruct (XF 1 ltac:(lia)) as [B3 B4]. cbn [Z.of_nat Z.add] in A1, A2, A3, A4. rewrite Z.add_0_r in B1, B2.
  unfold tg_at, spec_hsync, spec_vsync, spec_last. replace (Z.of_nat (frame_size v) + 1 - 1) with (Z.of_nat (frame_size v)) by lia. replace (1 - 1) with 0 by lia.
  rewrite A1, A2, A3, A4, B1, B2, B3, B4. rewrite FS. fold p.
  replace ((p_hscan p + 1) * (p_vscan p + 1) + 1) with (1 + 1 * ((p_hscan p + 1) * (p_vscan p + 1))) by ring. rewrite Z.mod_add by lia.
  rewrite (Z.mod_small 1) by lia. rewrite (Z.mod_small (0 + 1)) by lia.
  replace (1 <=? 1 + 1 * ((p_hscan p + 1) * (p_vscan p + 1))) with true by (symmetry; apply Z.leb_le; lia).
  replace (0 <? p_hres p) with true by (symmetry; apply Z.ltb_lt; lia). replace (0 <? p_vres p) with true by (symmetry; apply Z.ltb_lt; lia).
  replace (0 <? p_hres p') with true by (symmetry; apply Z.ltb_lt; lia). replace (0 <? p_vres p') with true by (symmetry; apply Z.ltb_lt; lia).
  replace (p_hs_start p <=? 0) with false by (symmetry; apply Z.leb_gt; lia). replace (p_vs_start p <=? 0) with false by (symmetry; apply Z.leb_gt; lia).
  replace (p_hs_start p' <=? 0) with false by (symmetry; apply Z.leb_gt; lia). replace (p_vs_start p' <=? 0) with false by (symmetry; apply Z.leb_gt; lia).
  reflexivity.
Qed.
Lemma last_at : forall v r, good v -> (r <= frame_size v)%nat -> t_last (tg_at (vp_t v) (Z.of_nat r)) = (r =? frame_size v)%nat.
Proof.
  intros v r G LE. destruct (frame_size_pos v G) as [F4 FS]. cbn [tg_at t_last]. unfold spec_last.
  replace (Z.of_nat r - 1 + 1) with (Z.of_nat r) by lia. rewrite <- FS. destruct (Nat.eqb_spec r (frame_size v)) as [-> |NE].
  - rewrite Z.mod_same by lia. apply andb_true_iff. split; [apply Z.leb_le; lia|reflexivity].
  - rewrite Z.mod_small by lia. apply andb_false_iff. destruct r; [left; reflexivity|right; apply Z.eqb_neq; lia].
Qed.

Lemma core_step : forall g v s i, good v -> vt_valid s = true -> vt_head s i = v -> core_inv g v s ->
  let s' := vt_step aw depth s i in let x := vt_xfer s i in let g' := fr_step g v x (length (vt_reads s')) in
  vo_tready (vt_tg s) (vt_vi s i) = x /\ t_last (vt_tg s) = (fr_pos g =? frame_size v)%nat /\
  (x && (fr_pos g =? frame_size v)%nat = false -> core_inv g' v s') /\
  (x && (fr_pos g =? frame_size v)%nat = true -> forall v', good v' -> core_inv g' v' s').
Proof.
  intros g v s i G Hv Hh [P TG DR RD DP TN PA] s' x g'.
  destruct (frame_size_pos v G) as [F4 FS].
  assert (ET : vo_tready (vt_tg s) (vt_vi s i) = x).
  { unfold vo_tready, x, vt_xfer, vo_transfer. cbn [vt_vi vi_valid]. rewrite Hv. reflexivity. }
  split; [exact ET|]. split; [rewrite TG; apply last_at; assumption|].
  assert (Hlen : 0 < vp_length v <= 2 ^ aw) by (destruct G; nia).
  assert (Hok : params_ok (vp_t v)) by (destruct G; assumption).
  (* the scan *)
  assert (TG' : vt_tg s' = if x then tg_at (vp_t v) (Z.of_nat (S (fr_pos g))) else tg_at (vp_t v) (Z.of_nat (fr_pos g))).
  { unfold s', vt_step. cbv zeta. cbn [vt_tg]. unfold vo_step. rewrite ET. cbn [vt_vi vi_valid vi_p]. rewrite Hv, Hh, TG.
    destruct x; [|reflexivity]. replace (Z.of_nat (S (fr_pos g))) with (Z.of_nat (fr_pos g) + 1) by lia. apply tg_at_succ; [exact Hok|lia]. }
  (* words leaving *)
  set (sv := vt_vi s i) in *. set (deq := vi_dv sv && vo_dready false (vt_tg s) sv).
  set (q := if deq then tl (vt_reads s) else vt_reads s).
  set (tk' := if x then pixels_before (vp_t v) (fr_pos g) else shown g v).
  assert (Q : q = map (word g v) (seq tk' (length q)) /\ (tk' + length q = shown g v + length (vt_reads s))%nat /\ (length q <= length (vt_reads s))%nat).
  { assert (VV : vi_valid sv = true) by exact Hv.
    assert (DE : tg_de true (vt_tg s) = (1 <=? Z.of_nat (fr_pos g)) && spec_de (vp_t v) (Z.of_nat (fr_pos g) - 1)).
    { rewrite TG. unfold tg_de, spec_de. cbn [tg_at t_hact t_vact]. destruct (1 <=? Z.of_nat (fr_pos g)); reflexivity. }
    assert (PB : pixels_before (vp_t v) (fr_pos g) = (shown g v + (if tg_de true (vt_tg s) then 1 else 0))%nat).
    { rewrite DE. unfold shown. destruct (fr_pos g) as [|k]; [reflexivity|]. replace (S k - 1)%nat with k by lia.
      unfold pixels_before. cbn [occurrences plus]. replace (1 <=? Z.of_nat (S k)) with true by (symmetry; apply Z.leb_le; lia).
      replace (Z.of_nat (S k) - 1) with (Z.of_nat k) by lia. reflexivity. }
    assert (XE : x = vo_valid (vt_tg s) sv && vi_ready sv) by reflexivity.
    assert (DQ : deq = x && tg_de true (vt_tg s)).
    { unfold deq, vo_dready. rewrite VV, orb_false_r, XE. cbn [negb]. unfold vo_valid. rewrite VV. cbn [andb].
      destruct (tg_de true (vt_tg s)), (vi_dv sv), (vi_ready sv); reflexivity. }
    unfold q, tk'. rewrite DQ. destruct x; cbn [andb]; [|auto]. rewrite PB. destruct (tg_de true (vt_tg s)) eqn:DT.
    - assert (NE : vt_reads s <> []).
      { symmetry in XE. apply andb_true_iff in XE as [XE _]. unfold vo_valid in XE. rewrite VV, DT in XE. cbn [negb orb andb] in XE.
        unfold sv in XE. cbn [vt_vi vi_dv] in XE. apply andb_true_iff in XE as [_ XE]. destruct (vt_reads s); [discriminate|congruence]. }
      destruct (vt_reads s) as [|a r]; [congruence|]. cbn [tl length] in *. cbn [seq map] in RD. injection RD as _ RD.
      split; [|split; lia]. rewrite Nat.add_1_r. exact RD.
    - rewrite Nat.add_0_r. auto. }
  destruct Q as (Q1 & Q2 & Q3).
  (* words entering *)
  set (d := vt_di depth s i) in *.
  assert (HL : dri_length d = vp_length v) by (unfold d; cbn [vt_di dri_length]; rewrite Hh; reflexivity).
  assert (HB : dri_base d = vp_base v) by (unfold d; cbn [vt_di dri_base]; rewrite Hh; reflexivity).
  pose proof (dr_rel_step aw (vp_base v) (vp_length v) Haw Hlen (vt_dr s) _ d ltac:(apply Nat2Z.is_nonneg) Hv HB HL DR) as RS.
  assert (RE : vt_reads s' = q ++ match dr_taken aw (vt_dr s) d with Some a => [a] | None => [] end) by reflexivity.
  assert (DEs : vt_dr s' = dr_step false aw 0 (vt_dr s) d) by reflexivity.
  assert (DPs : match dr_taken aw (vt_dr s) d with Some _ => (length (vt_reads s) < depth)%nat | None => True end).
  { unfold dr_taken. destruct (dr_addr_valid (vt_dr s)); [|exact Logic.I]. unfold d. cbn [vt_di dri_ready andb].
    destruct (ti_mem i); [|exact Logic.I]. cbn [andb]. destruct (Nat.ltb_spec (length (vt_reads s)) depth); [assumption|exact Logic.I]. }
  assert (N : dr_rel (vp_length v) (vt_dr s') (Z.of_nat (tk' + length (vt_reads s'))) /\ vt_reads s' = map (word g v) (seq tk' (length (vt_reads s'))) /\
    (length (vt_reads s') <= depth)%nat /\ (fr_torn g <= tk' + length (vt_reads s'))%nat).
  { rewrite DEs, RE, app_length. clearbody q. destruct (dr_taken aw (vt_dr s) d) as [a|].
    - destruct RS as [EA RS]. cbn [length]. replace (tk' + (length q + 1))%nat with (shown g v + length (vt_reads s) + 1)%nat by lia.
      split; [rewrite Nat2Z.inj_add; exact RS|]. split; [|lia]. rewrite seq_app, map_app, <- Q1. f_equal. cbn [seq map]. f_equal.
      rewrite EA. unfold word. replace (tk' + length q <? fr_torn g)%nat with false by (symmetry; apply Nat.ltb_ge; lia). rewrite Q2. reflexivity.
    - cbn [length]. rewrite Nat.add_0_r, Q2, app_nil_r. split; [exact RS|]. split; [exact Q1|lia]. }
  destruct N as (N1 & N2 & N3 & N4). clearbody s'. clear RS RE DEs DPs Q1 Q2 Q3. clearbody q deq. split.
  - intros NB. assert (SG : shown g' v = tk' /\ fr_torn g' = fr_torn g /\ (forall w, word g' v w = word g v w) /\
      (fr_pos g' <= frame_size v)%nat /\ vt_tg s' = tg_at (vp_t v) (Z.of_nat (fr_pos g'))).
    { unfold g', fr_step, tk', shown, word. destruct x; cbn [andb] in NB; [|rewrite TG'; auto]. rewrite NB. cbn [fr_pos fr_torn fr_prev].
      apply Nat.eqb_neq in NB. replace (S (fr_pos g) - 1)%nat with (fr_pos g) by lia. split; [reflexivity|]. split; [reflexivity|]. split; [reflexivity|]. split; [lia|exact TG']. }
    destruct SG as (S1 & S2 & S3 & S4 & S5). clearbody g'. constructor; rewrite ?S1, ?S2; try assumption. rewrite N2 at 1. apply map_ext. intros w. symmetry. apply S3.
  - intros B v' G'. apply andb_true_iff in B as [BX BP]. unfold g', fr_step. rewrite BX, BP. apply Nat.eqb_eq in BP.
    unfold tk' in *. rewrite BX in *. rewrite BP in *.
    pose proof (pixels_frame v G) as PF. set (T := length (vt_reads s')) in *. set (g1 := {| fr_pos := 1; fr_torn := T; fr_prev := vp_base v |}).
    assert (D1 : Z.of_nat depth < vp_length v) by (destruct G; assumption). assert (D2 : Z.of_nat depth < vp_length v') by (destruct G'; assumption).
    assert (S0 : shown g1 v' = 0%nat) by reflexivity.
    destruct (frame_size_pos v' G') as [F4' _].
    assert (MM : Z.of_nat (pixels_before (vp_t v) (frame_size v) + T) mod vp_length v = Z.of_nat T).
    { rewrite Nat2Z.inj_add, PF. replace (vp_length v + Z.of_nat T) with (Z.of_nat T + 1 * vp_length v) by ring. rewrite Z.mod_add by lia. apply Z.mod_small. lia. }
    constructor; cbn [fr_pos fr_torn fr_prev g1]; fold T; rewrite ?S0.
    + lia.
    + rewrite TG'. replace (Z.of_nat (S (frame_size v))) with (Z.of_nat (frame_size v) + 1) by lia. apply tg_first; assumption.
    + unfold dr_rel in *. rewrite Nat.add_0_l, MM in *. rewrite (Z.mod_small (Z.of_nat T)) by lia. exact N1.
    + rewrite N2. fold T. replace (pixels_before (vp_t v) (frame_size v)) with (pixels_before (vp_t v) (frame_size v) + 0)%nat by lia.
      apply nth_ext with (d := word g v 0) (d' := word g1 v' 0); [rewrite !map_length, !seq_length; reflexivity|].
      rewrite map_length, seq_length. intros w W.
      rewrite !map_nth, !seq_nth by lia. unfold word. cbn [g1 fr_torn fr_prev Nat.add].
      replace (_ <? fr_torn g)%nat with false by (symmetry; apply Nat.ltb_ge; lia). replace (w <? T)%nat with true by (symmetry; apply Nat.ltb_lt; lia).
      rewrite (Z.mod_small (Z.of_nat w)) by lia. f_equal. f_equal. rewrite !Nat2Z.inj_add, PF. change (Z.of_nat 0) with 0.
      replace (vp_length v + 0 + Z.of_nat w) with (Z.of_nat w + 1 * vp_length v) by ring. rewrite Z.mod_add by lia. apply Z.mod_small. lia.
    + exact N3.
    + exact N3.
    + lia.
Qed.

(** What is on show. *)
Lemma core_shows : forall g v s, good v -> core_inv g v s -> forall y x, 0 <= y < p_vscan (vp_t v) + 1 -> 0 <= x < p_hscan (vp_t v) + 1 ->
  Z.of_nat (fr_pos g) = 1 + y * (p_hscan (vp_t v) + 1) + x ->
  tg_de true (vt_tg s) = (x <? p_hres (vp_t v)) && (y <? p_vres (vp_t v)) /\
  t_hs (vt_tg s) = (p_hs_start (vp_t v) <=? x) && (x <? p_hs_end (vp_t v)) /\
  t_vs (vt_tg s) = (p_vs_start (vp_t v) <=? y) && (y <? p_vs_end (vp_t v)) /\
  (x < p_hres (vp_t v) -> y < p_vres (vp_t v) -> vt_reads s <> [] ->
   let q := y * p_hres (vp_t v) + x in
   hd 0 (vt_reads s) = ((if q <? Z.of_nat (fr_torn g) then fr_prev g else vp_base v) + q) mod 2 ^ aw).
Proof.
  intros g v s G [P TG _ RD _ _ _] y x Hy Hx EQ. assert (Hok : params_ok (vp_t v)) by (destruct G; assumption).
  destruct (point_xy (vp_t v) 0 y x ltac:(lia) ltac:(lia) ltac:(lia)) as [PA PB]. cbv zeta in PA, PB.
  replace ((0 * (p_vscan (vp_t v) + 1) + y) * (p_hscan (vp_t v) + 1) + x) with (Z.of_nat (fr_pos g) - 1) in PA, PB by lia.
  assert (P1 : 1 <= Z.of_nat (fr_pos g)) by (destruct Hok; nia).
  rewrite TG. unfold tg_de. cbn [tg_at t_hact t_vact t_hs t_vs]. unfold spec_hsync, spec_vsync. rewrite PA, PB.
  replace (1 <=? Z.of_nat (fr_pos g)) with true by (symmetry; apply Z.leb_le; lia). cbn [andb].
  split; [reflexivity|]. split; [reflexivity|]. split; [reflexivity|]. intros Lx Ly NE. set (q := y * p_hres (vp_t v) + x).
  assert (SH : Z.of_nat (shown g v) = q).
  { unfold shown. replace (fr_pos g - 1)%nat with (Z.to_nat ((0 * (p_vscan (vp_t v) + 1) + y) * (p_hscan (vp_t v) + 1) + x)) by lia.
    rewrite (pixels_before_point (vp_t v) Hok 0 y x) by lia. unfold q. ring. }
  rewrite RD. destruct (vt_reads s) as [|a r]; [congruence|]. cbn [length seq map hd]. unfold word, trunc. rewrite SH.
  assert (QL : 0 <= q < vp_length v) by (destruct G; unfold q; nia). rewrite (Z.mod_small q) by exact QL. f_equal. f_equal.
  destruct (Nat.ltb_spec (shown g v) (fr_torn g)), (Z.ltb_spec q (Z.of_nat (fr_torn g))); try reflexivity; lia.
Qed.
(** Before the first frame. *)
Lemma core_idle : forall g v s, good v -> core_inv g v s -> fr_pos g = 0%nat -> vt_tg s = tg_init.
Proof. intros g v s G C E. rewrite (ci_tg _ _ _ C), E. apply tg_at_0. destruct G; assumption. Qed.
(** A word requested. *)
Lemma core_asks : forall g v s i, good v -> vt_valid s = true -> vt_head s i = v -> core_inv g v s ->
  forall a, dr_taken aw (vt_dr s) (vt_di depth s i) = Some a -> exists q, 0 <= q < vp_length v /\ a = (vp_base v + q) mod 2 ^ aw.
Proof.
  intros g v s i G Hv Hh [_ _ DR _ _ _ _] a TK.
  assert (Hlen : 0 < vp_length v <= 2 ^ aw) by (destruct G; nia).
  assert (HL : dri_length (vt_di depth s i) = vp_length v) by (cbn [vt_di dri_length]; rewrite Hh; reflexivity).
  assert (HB : dri_base (vt_di depth s i) = vp_base v) by (cbn [vt_di dri_base]; rewrite Hh; reflexivity).
  pose proof (dr_rel_step aw (vp_base v) (vp_length v) Haw Hlen (vt_dr s) _ (vt_di depth s i) ltac:(apply Nat2Z.is_nonneg) Hv HB HL DR) as RS.
  rewrite TK in RS. destruct RS as [-> _]. eexists. split; [apply Z.mod_pos_bound; lia|reflexivity].
Qed.
End Mode.
