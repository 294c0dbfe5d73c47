(** C37: what is shown when software moves the picture: the tear is confined to the words that
    were prefetched. *)
From Coq Require Import ZArith List Bool Lia Arith.
From Verif Require Import Hdl Trace TimingModel TimingSpec TimingProofs VideoOutModel VideoOutProofs.
Import ListNotations.
Open Scope Z_scope.

(** The states [st] of a core and the inputs [i] of its clocks, whatever keeps its parameter sets. *)
Section Tear.
Variables (aw : Z) (depth : nat) (p : fparam) (len : Z) (st : nat -> vt_st) (i : nat -> vt_in).
Hypothesis Haw : 0 <= aw.
Hypothesis ok : params_ok p.
Hypothesis Hlen : 0 < len <= 2 ^ aw.
Hypothesis Hsize : len = p_hres p * p_vres p.
Hypothesis H0 : vt_tg (st 0%nat) = tg_init /\ vt_dr (st 0%nat) = dr_init /\ vt_reads (st 0%nat) = [].
Hypothesis HS : forall n, vt_tg (st (S n)) = vt_tg (vt_step aw depth (st n) (i n)) /\
  vt_dr (st (S n)) = vt_dr (vt_step aw depth (st n) (i n)) /\ vt_reads (st (S n)) = vt_reads (vt_step aw depth (st n) (i n)).
Hypothesis tear_head : forall n, vp_t (vt_head (st n) (i n)) = p /\ vp_length (vt_head (st n) (i n)) = len /\ vt_valid (st n) = true.
Hypothesis tear_keep : forall n, vt_valid (st n) && tg_sink_ready (vo_tready (vt_tg (st n)) (vt_vi (st n) (i n))) (vt_tg (st n)) = false ->
  vp_base (vt_head (st (S n)) (i (S n))) = vp_base (vt_head (st n) (i n)).
Let acc n := occurrences (fun m => vt_xfer (st m) (i m)) 0 n.
Let base n := vp_base (vt_head (st n) (i n)).
Let taken n := pixels_before p (acc n - 1).
Let total n := (taken n + length (vt_reads (st n)))%nat.
Let HV := (p_hscan p + 1) * (p_vscan p + 1).

Lemma tear_tg : forall n, vt_tg (st n) = tg_at p (Z.of_nat (acc n)).
Proof.
  induction n as [|n IH]; [rewrite (proj1 H0); symmetry; apply tg_at_0; exact ok|].
  rewrite (proj1 (HS n)). cbn [vt_step vt_tg]. unfold vo_step.
  destruct (tear_head n) as (Hh & _ & Hv). unfold acc in *. cbn [occurrences plus].
  assert (ET : vo_tready (vt_tg (st n)) (vt_vi (st n) (i n)) = vt_xfer (st n) (i n)).
  { unfold vo_tready, vt_xfer, vo_transfer. cbn [vt_vi vi_valid]. rewrite Hv. reflexivity. }
  rewrite ET. cbn [vt_vi vi_valid vi_p]. rewrite Hh, Hv. rewrite IH.
  destruct (vt_xfer (st n) (i n)); rewrite Nat2Z.inj_add.
  - change (Z.of_nat 1) with 1. apply tg_at_succ; [exact ok|lia].
  - change (Z.of_nat 0) with 0. rewrite Z.add_0_r. reflexivity.
Qed.

Lemma acc_S : forall n, acc (S n) = (acc n + if vt_xfer (st n) (i n) then 1 else 0)%nat.
Proof. reflexivity. Qed.
Lemma acc_mono : forall a b, (a <= b)%nat -> (acc a <= acc b)%nat.
Proof. intros a b H. induction H as [|b H IH]; [lia|]. rewrite acc_S. lia. Qed.
Lemma HV_pos : 0 < HV.
Proof. unfold HV. destruct ok. nia. Qed.

(** A set is taken exactly at the transfer that follows the last clock of a frame. *)
Lemma pop_at : forall n, vt_valid (st n) && tg_sink_ready (vo_tready (vt_tg (st n)) (vt_vi (st n) (i n))) (vt_tg (st n)) = true ->
  exists j, 1 <= j /\ Z.of_nat (acc n) = j * HV.
Proof.
  intros n P. apply andb_prop in P as [_ P]. unfold tg_sink_ready in P. apply andb_prop in P as [_ P].
  rewrite tear_tg in P. cbn [tg_at t_last] in P. apply andb_prop in P as [P1 P2]. apply Z.leb_le in P1. unfold spec_last in P2. apply Z.eqb_eq in P2.
  replace (Z.of_nat (acc n) - 1 + 1) with (Z.of_nat (acc n)) in P2 by lia. fold HV in P2. pose proof HV_pos.
  pose proof (Z.div_mod (Z.of_nat (acc n)) HV ltac:(lia)) as DM. rewrite P2 in DM.
  exists (Z.of_nat (acc n) / HV). split; [|lia]. assert (0 < Z.of_nat (acc n) / HV) by nia. lia.
Qed.
(** So the set on offer stays the same during a frame. *)
Lemma base_frame : forall f a b, 0 <= f -> (a <= b)%nat -> (f = 0 \/ f * HV < Z.of_nat (acc a)) -> Z.of_nat (acc b) <= (f + 1) * HV -> base b = base a.
Proof.
  intros f a b Hf AB A B. induction AB as [|b AB IH]; [reflexivity|].
  assert (MO : (acc b <= acc (S b))%nat) by (apply acc_mono; lia). pose proof (acc_mono a b AB) as MA.
  rewrite <- IH by lia. pose proof (tear_keep b) as KEEP. destruct (vt_valid (st b) && _) eqn:P.
  - exfalso. destruct (pop_at b P) as (j & J & EJ). pose proof HV_pos as HP.
    assert (XF : vt_xfer (st b) (i b) = true).
    { apply andb_prop in P as [Hv P]. unfold tg_sink_ready in P. apply andb_prop in P as [P _]. unfold vo_tready in P. cbn [vt_vi vi_valid] in P. rewrite Hv in P. exact P. }
    rewrite acc_S, XF in B. assert (j = f) by (destruct A as [-> |A]; nia). subst j. destruct A; [lia|]. nia.
  - exact (KEEP eq_refl).
Qed.

(** Word number [k]: read in clock [m], from the picture on offer then. *)
Definition read_in (n k : nat) (a : Z) : Prop :=
  exists m, (m < n)%nat /\ a = trunc aw (base m + Z.of_nat k mod len) /\ total m = k /\ total (S m) = S k /\ (length (vt_reads (st m)) < depth)%nat.
Fixpoint reads_in (n k : nat) (l : list Z) : Prop :=
  match l with [] => True | a :: r => read_in n k a /\ reads_in n (S k) r end.
Lemma read_in_S : forall n k a, read_in n k a -> read_in (S n) k a.
Proof. intros n k a (m & A & B). exists m. split; [lia|exact B]. Qed.
Lemma reads_in_S : forall n l k, reads_in n k l -> reads_in (S n) k l.
Proof. intros n. induction l as [|a l IH]; intros k H; [exact I|]. destruct H as [H1 H2]. split; [apply read_in_S; exact H1|apply IH; exact H2]. Qed.
Lemma reads_in_app : forall n l k l', reads_in n k l -> reads_in n (k + length l) l' -> reads_in n k (l ++ l').
Proof.
  intros n. induction l as [|a l IH]; intros k l' H1 H2; [cbn in H2; rewrite Nat.add_0_r in H2; exact H2|].
  destruct H1 as [H1 H3]. split; [exact H1|]. apply IH; [exact H3|]. cbn [length] in H2. replace (S k + length l)%nat with (k + S (length l))%nat by lia. exact H2.
Qed.

(** One clock: which words leave and enter the queue. *)
Lemma tear_taken : forall n, let v := vt_vi (st n) (i n) in
  (vi_dv v && vo_dready false (vt_tg (st n)) v = true -> taken (S n) = S (taken n) /\ vt_reads (st n) <> []) /\
  (vi_dv v && vo_dready false (vt_tg (st n)) v = false -> taken (S n) = taken n).
Proof.
  intros n v. destruct (tear_head n) as (_ & _ & Hv).
  unfold taken. rewrite acc_S.
  assert (XE : vt_xfer (st n) (i n) = vo_valid (vt_tg (st n)) v && vi_ready v) by reflexivity.
  unfold vo_dready. assert (VV : vi_valid v = true) by exact Hv. rewrite VV. cbn [negb]. rewrite orb_false_r.
  assert (DE : tg_de true (vt_tg (st n)) = (1 <=? Z.of_nat (acc n)) && spec_de p (Z.of_nat (acc n) - 1)).
  { rewrite tear_tg. unfold tg_de, spec_de. cbn [tg_at t_hact t_vact]. destruct (1 <=? Z.of_nat (acc n)); reflexivity. }
  assert (PB : vt_xfer (st n) (i n) = true ->
               pixels_before p (acc n + 1 - 1) = (pixels_before p (acc n - 1) + (if tg_de true (vt_tg (st n)) then 1 else 0))%nat).
  { intros _. rewrite DE. destruct (acc n) as [|k]; [reflexivity|].
    replace (S k + 1 - 1)%nat with (S k) by lia. replace (S k - 1)%nat with k by lia.
    unfold pixels_before. cbn [occurrences plus].
    replace (1 <=? Z.of_nat (S k)) with true by (symmetry; apply Z.leb_le; lia).
    replace (Z.of_nat (S k) - 1) with (Z.of_nat k) by lia. reflexivity. }
  rewrite XE in *. destruct (vo_valid (vt_tg (st n)) v && vi_ready v) eqn:XF.
  - rewrite (PB eq_refl). destruct (tg_de true (vt_tg (st n))) eqn:DT.
    + rewrite andb_true_r. split.
      * intros DV. split; [lia|]. cbn [v vt_vi vi_dv] in DV. apply andb_true_iff in DV as [_ DV].
        destruct (vt_reads (st n)); [discriminate|congruence].
      * intros DV. apply andb_true_iff in XF as [XF _]. unfold vo_valid in XF. rewrite VV, DT, DV in XF. discriminate.
    + rewrite !andb_false_r. split; [discriminate|]. intros _. lia.
  - cbn [andb]. rewrite andb_false_r. split; [discriminate|]. intros _. rewrite Nat.add_0_r. reflexivity.
Qed.

Lemma tear_total : forall n, total (S n) = (total n + match dr_taken aw (vt_dr (st n)) (vt_di depth (st n) (i n)) with Some _ => 1 | None => 0 end)%nat.
Proof.
  intros n. unfold total at 1. destruct (tear_taken n) as [T1 T0]. set (v := vt_vi (st n) (i n)) in *.
  assert (RE : vt_reads (st (S n)) = (if vi_dv v && vo_dready false (vt_tg (st n)) v then tl (vt_reads (st n)) else vt_reads (st n)) ++
    match dr_taken aw (vt_dr (st n)) (vt_di depth (st n) (i n)) with Some a => [a] | None => [] end) by exact (proj2 (proj2 (HS n))).
  rewrite RE, app_length. unfold total. destruct (vi_dv v && vo_dready false (vt_tg (st n)) v).
  - destruct (T1 eq_refl) as [-> NE]. destruct (vt_reads (st n)); [congruence|]. cbn [tl length]. destruct (dr_taken _ _ _); cbn [length]; lia.
  - rewrite (T0 eq_refl). destruct (dr_taken _ _ _); cbn [length]; lia.
Qed.
Lemma total_mono : forall a b, (a <= b)%nat -> (total a <= total b)%nat.
Proof. intros a b H. induction H as [|b H IH]; [lia|]. rewrite tear_total. destruct (dr_taken _ _ _); lia. Qed.

Lemma tear_inv : forall n, dr_rel len (vt_dr (st n)) (Z.of_nat (total n)) /\ reads_in n (taken n) (vt_reads (st n)) /\ (length (vt_reads (st n)) <= depth)%nat.
Proof.
  induction n as [|n (R & I & LE)].
  - destruct H0 as (_ & D0 & R0). unfold total. rewrite D0, R0. split; [|split; [exact Logic.I|cbn; lia]]. change (0 mod len = 0). apply Z.mod_0_l. lia.
  - destruct (tear_head n) as (_ & HL & Hv). pose proof (tear_total n) as TT. set (d := vt_di depth (st n) (i n)) in *.
    pose proof (dr_rel_step aw (base n) len Haw Hlen (vt_dr (st n)) (Z.of_nat (total n)) d ltac:(lia) Hv eq_refl HL R) as RS.
    destruct (tear_taken n) as [T1 T0]. set (v := vt_vi (st n) (i n)) in *.
    assert (RE : vt_reads (st (S n)) = (if vi_dv v && vo_dready false (vt_tg (st n)) v then tl (vt_reads (st n)) else vt_reads (st n)) ++
      match dr_taken aw (vt_dr (st n)) d with Some a => [a] | None => [] end) by exact (proj2 (proj2 (HS n))).
    assert (DE : vt_dr (st (S n)) = dr_step false aw 0 (vt_dr (st n)) d) by exact (proj1 (proj2 (HS n))).
    assert (DP : match dr_taken aw (vt_dr (st n)) d with Some _ => (length (vt_reads (st n)) < depth)%nat | None => True end).
    { unfold dr_taken. destruct (dr_addr_valid (vt_dr (st n))); [|exact Logic.I]. cbn [d vt_di dri_ready andb].
      destruct (ti_mem (i n)); [|exact Logic.I]. cbn [andb]. destruct (Nat.ltb_spec (length (vt_reads (st n))) depth); [assumption|exact Logic.I]. }
    assert (LQ : (length (if vi_dv v && vo_dready false (vt_tg (st n)) v then tl (vt_reads (st n)) else vt_reads (st n)) <= length (vt_reads (st n)))%nat).
    { destruct (vi_dv v && _); [destruct (vt_reads (st n)); cbn; lia|lia]. }
    assert (IQ : reads_in (S n) (taken (S n)) (if vi_dv v && vo_dready false (vt_tg (st n)) v then tl (vt_reads (st n)) else vt_reads (st n)) /\
      (taken (S n) + length (if vi_dv v && vo_dready false (vt_tg (st n)) v then tl (vt_reads (st n)) else vt_reads (st n)) = total n)%nat).
    { apply reads_in_S in I. unfold total. destruct (vi_dv v && _).
      - destruct (T1 eq_refl) as [-> NE]. destruct (vt_reads (st n)) as [|a r]; [congruence|]. destruct I as [_ I]. cbn [tl length]. split; [exact I|lia].
      - rewrite (T0 eq_refl). split; [exact I|reflexivity]. }
    destruct IQ as [IQ EQ]. rewrite RE, DE. set (q := if vi_dv v && _ then _ else _) in *. clearbody q.
    destruct (dr_taken aw (vt_dr (st n)) d) as [a|].
    + destruct RS as [EA RS]. split; [rewrite TT; replace (Z.of_nat (total n + 1)) with (Z.of_nat (total n) + 1) by lia; exact RS|]. split.
      * apply reads_in_app; [exact IQ|]. rewrite EQ. split; [|exact Logic.I]. exists n. split; [lia|]. split; [exact EA|]. split; [reflexivity|]. split; [lia|exact DP].
      * rewrite app_length. cbn [length]. lia.
    + split; [rewrite TT, Nat.add_0_r; exact RS|]. rewrite app_nil_r. split; [exact IQ|lia].
Qed.

Lemma pixels_mono : forall a b, (a <= b)%nat -> (pixels_before p a <= pixels_before p b)%nat.
Proof. clear. intros a b H. induction H as [|b H IH]; [lia|]. unfold pixels_before in *. cbn [occurrences]. lia. Qed.

(** The first clock after the transfer number [k]. *)
Lemma acc_reach : forall n k, (k < acc n)%nat -> exists u, (u < n)%nat /\ acc u = k /\ vt_xfer (st u) (i u) = true.
Proof.
  induction n as [|n IH]; intros k H; [cbn in H; lia|]. rewrite acc_S in H. destruct (Nat.lt_ge_cases k (acc n)) as [LT|GE].
  - destruct (IH k LT) as (u & U & A). exists u. split; [lia|exact A].
  - destruct (vt_xfer (st n) (i n)) eqn:X; [|lia]. exists n. split; [lia|]. split; [lia|exact X].
Qed.

Lemma tear : (depth <= Z.to_nat len)%nat -> forall n f y x, 0 <= f -> 0 <= y < p_vres p -> 0 <= x < p_hres p ->
  Z.of_nat (acc n) = 1 + (f * (p_vscan p + 1) + y) * (p_hscan p + 1) + x -> vt_xfer (st n) (i n) = true ->
  let q := y * p_hres p + x in let d := vi_data (vt_vi (st n) (i n)) in
  (f = 0 -> d = (base n + q) mod 2 ^ aw) /\
  (1 <= f -> exists u, (u < n)%nat /\ Z.of_nat (acc u) = f * HV /\ vt_xfer (st u) (i u) = true /\
    let T := length (vt_reads (st (S u))) in (T <= depth)%nat /\
    d = ((if q <? Z.of_nat T then base u else base n) + q) mod 2 ^ aw).
Proof.
  intros HDP n f y x Hf Hy Hx A XF q d. pose proof HV_pos as HP.
  set (k := (f * (p_vscan p + 1) + y) * (p_hscan p + 1) + x) in *.
  assert (K : 0 <= k) by (destruct ok; unfold k; nia).
  assert (YX : 0 <= y * (p_hscan p + 1) + x /\ y * (p_hscan p + 1) + x + 2 <= HV) by (unfold HV; destruct ok; nia).
  assert (KE : k = f * HV + (y * (p_hscan p + 1) + x)) by (unfold k, HV; ring).
  assert (NF : Z.of_nat (acc n) <= (f + 1) * HV) by lia.
  destruct (tear_head n) as (_ & _ & Hv).
  assert (DE : tg_de (vt_valid (st n)) (vt_tg (st n)) = true).
  { rewrite Hv, tear_tg. unfold tg_de. cbn [tg_at t_hact t_vact]. replace (Z.of_nat (acc n) - 1) with k by lia.
    destruct (point_xy p f y x Hf ltac:(destruct ok; lia) ltac:(destruct ok; lia)) as [PA PB]. cbv zeta in PA, PB. fold k in PA, PB.
    rewrite PA, PB. repeat (apply andb_true_iff; split); try reflexivity; try (apply Z.leb_le; lia); apply Z.ltb_lt; lia. }
  assert (TK : Z.of_nat (taken n) = f * len + q).
  { unfold taken. replace (acc n - 1)%nat with (Z.to_nat k) by lia. unfold k. rewrite (pixels_before_point p ok f y x Hf Hy Hx), Hsize. unfold q. ring. }
  assert (QB : 0 <= q < len) by (unfold q; rewrite Hsize; nia).
  assert (QM : Z.of_nat (taken n) mod len = q).
  { rewrite TK, Z.add_comm, Z.mod_add by lia. apply Z.mod_small. exact QB. }
  destruct (tear_inv n) as (_ & I & _).
  assert (NE : exists a r, vt_reads (st n) = a :: r).
  { unfold vt_xfer, vo_transfer, vo_valid in XF. cbn [vt_vi vi_valid vi_dv vi_ready] in XF. rewrite DE in XF. cbn [negb orb] in XF.
    destruct (vt_reads (st n)) as [|a r]; [rewrite !andb_false_r in XF; rewrite ?andb_false_l in XF; discriminate|]. eauto. }
  destruct NE as (a & r & RE). assert (DA : d = a) by (unfold d; cbn [vt_vi vi_data]; rewrite RE; reflexivity).
  rewrite RE in I. destruct I as [(m & M1 & M2 & M3 & M4 & M5) _]. rewrite QM in M2.
  split.
  - intros F0. rewrite DA, M2. unfold trunc. f_equal. f_equal. symmetry. apply (base_frame f m n Hf ltac:(lia) (or_introl F0) NF).
  - intros F1. destruct (acc_reach n (Z.to_nat (f * HV)) ltac:(lia)) as (u & U1 & U2 & U3).
    exists u. split; [exact U1|]. assert (UA : Z.of_nat (acc u) = f * HV) by (rewrite U2; apply Z2Nat.id; nia). split; [exact UA|]. split; [exact U3|].
    cbv zeta. destruct (tear_inv (S u)) as (_ & _ & LU). split; [exact LU|].
    assert (US : Z.of_nat (acc (S u)) = f * HV + 1) by (rewrite acc_S, U3; lia).
    assert (FH : (f * HV = (f * (p_vscan p + 1) + 0) * (p_hscan p + 1) + 0)) by (unfold HV; ring).
    assert (TU : Z.of_nat (taken (S u)) = f * len).
    { unfold taken. replace (acc (S u) - 1)%nat with (Z.to_nat (f * HV)) by lia. rewrite FH.
      rewrite (pixels_before_point p ok f 0 0 Hf) by lia. rewrite Hsize. ring. }
    rewrite DA, M2. unfold trunc. f_equal. f_equal.
    destruct (Z.ltb_spec q (Z.of_nat (length (vt_reads (st (S u)))))) as [LT|GE].
    + assert (MU : (m <= u)%nat).
      { destruct (Nat.le_gt_cases m u) as [|GT]; [assumption|exfalso]. pose proof (total_mono (S u) m GT) as MM. rewrite M3 in MM. unfold total at 1 in MM. lia. }
      symmetry. apply (base_frame (f - 1) m u ltac:(lia) MU); [right|nia].
      (* at the read, the display was past the first pixel of the frame before *)
      assert (TM : (f - 1) * len + 1 <= Z.of_nat (taken m)) by (unfold total in M3; nia).
      destruct (Z.lt_ge_cases ((f - 1) * HV) (Z.of_nat (acc m))) as [|LE]; [assumption|exfalso].
      assert (MONO : (taken m <= pixels_before p (Z.to_nat ((f - 1) * HV)))%nat).
      { unfold taken. apply pixels_mono. lia. }
      replace ((f - 1) * HV) with (((f - 1) * (p_vscan p + 1) + 0) * (p_hscan p + 1) + 0) in MONO by (unfold HV; ring).
      pose proof (pixels_before_point p ok (f - 1) 0 0 ltac:(lia) ltac:(lia) ltac:(lia)) as PP. rewrite Hsize in TM. nia.
    + assert (MU : (S u <= m)%nat).
      { destruct (Nat.le_gt_cases (S u) m) as [|GT]; [assumption|exfalso]. pose proof (total_mono (S m) (S u) ltac:(lia)) as MM. rewrite M4 in MM. unfold total in MM. lia. }
      symmetry. apply (base_frame f m n Hf ltac:(lia)); [right|exact NF]. pose proof (acc_mono (S u) m MU). lia.
Qed.
End Tear.

(** What holds when the sets differ in the address of the picture only and at most a picture's worth
    of words is prefetched: the first frame is whole; in a later frame the pixels whose words had been
    requested before the change of set (at most [depth], the capacity of the reader) come from the
    picture on offer before, at their right place, and all the others from the picture on offer while
    they are shown.  [u] is the clock of the change.  Missing: those first pixels (C37_tearing_refuted). *)
Theorem C37_tear_bounded_partial : forall aw depth p q0 (i : nat -> vt_in), 0 <= aw -> params_ok p ->
  0 < p_hres p * p_vres p <= 2 ^ aw -> Z.of_nat depth <= p_hres p * p_vres p ->
  (forall r, In r q0 -> vp_t r = p /\ vp_length r = p_hres p * p_vres p) ->
  (forall n r, ti_push (i n) = Some r -> vp_t r = p /\ vp_length r = p_hres p * p_vres p) ->
  let st := vt_run aw depth q0 i in
  (forall n, vt_q (st n) <> []) ->
  let shown_so_far n := Z.of_nat (occurrences (fun m => vt_xfer (st m) (i m)) 0 n) in
  let base n := vp_base (vt_head (st n) (i n)) in
  forall n f y x, 0 <= f -> 0 <= y < p_vres p -> 0 <= x < p_hres p ->
  shown_so_far n = 1 + (f * (p_vscan p + 1) + y) * (p_hscan p + 1) + x -> vt_xfer (st n) (i n) = true ->
  let q := y * p_hres p + x in let d := vi_data (vt_vi (st n) (i n)) in
  (f = 0 -> d = (base n + q) mod 2 ^ aw) /\
  (1 <= f -> exists u, (u < n)%nat /\ shown_so_far u = f * ((p_hscan p + 1) * (p_vscan p + 1)) /\ vt_xfer (st u) (i u) = true /\
    let T := length (vt_reads (st (S u))) in (T <= depth)%nat /\
    d = ((if q <? Z.of_nat T then base u else base n) + q) mod 2 ^ aw).
Proof.
  intros aw depth p q0 i Haw ok Hlen Hd Hq0 Hpush st Hq sh base n f y x Hf Hy Hx A XF.
  assert (LK : forall n r, In r (vt_q (st n)) -> vp_t r = p /\ vp_length r = p_hres p * p_vres p).
  { clear - Hq0 Hpush. induction n as [|n IH]; intros q H; [exact (Hq0 q H)|].
    change (st (S n)) with (vt_step aw depth (st n) (i n)) in H. cbn [vt_step vt_q] in H. apply in_app_or in H as [H | H].
    - apply IH. destruct (vt_valid (st n) && _); [|exact H]. destruct (vt_q (st n)); [destruct H|right; exact H].
    - destruct (ti_push (i n)) as [r|] eqn:E; [|destruct H]. destruct (length (vt_q (st n)) <? 4)%nat; [|destruct H].
      destruct H as [<- | []]. apply (Hpush n). exact E. }
  apply (tear aw depth p (p_hres p * p_vres p) st i Haw ok Hlen eq_refl); try assumption; try lia; try (intros; exact (conj eq_refl (conj eq_refl eq_refl))).
  - intros m. unfold vt_head, vt_valid. pose proof (Hq m) as Q. pose proof (LK m) as C.
    destruct (vt_q (st m)) as [|a r]; [congruence|]. destruct (C a (or_introl eq_refl)). auto.
  - intros m P. unfold vt_head. change (st (S m)) with (vt_step aw depth (st m) (i m)). cbn [vt_step vt_q]. rewrite P.
    pose proof (Hq m) as Q. destruct (vt_q (st m)); [congruence|]. reflexivity.
Qed.
Print Assumptions C37_tear_bounded_partial.

(** Pictures of two words at 100 and 200, the memory slow to take the second word of the second
    frame: one word had been requested at the change, so the frame shows words 100 and 201; the third
    frame is whole. *)
Definition ex_tear_t : fparam :=
  {| p_hres := 2; p_hs_start := 2; p_hs_end := 3; p_hscan := 3; p_vres := 1; p_vs_start := 1; p_vs_end := 1; p_vscan := 1 |}.
Definition ex_tear_pr (b : Z) : vparam := {| vp_t := ex_tear_t; vp_base := b; vp_length := 2 |}.
Definition ex_tear_in (m : nat) : vt_in :=
  {| ti_push := Some (ex_tear_pr 200); ti_mem := (m <? 5)%nat || (11 <? m)%nat; ti_ret := true; ti_ready := true; ti_junk := ex_tear_pr 0 |}.
Definition ex_tear (m : nat) : vt_st := vt_run 24 2 [ex_tear_pr 100; ex_tear_pr 200] ex_tear_in m.
Example C37_tear_hyp : params_ok ex_tear_t /\ (forall n, vt_q (ex_tear n) <> []) /\
  collect (fun m => let s := ex_tear m in if vt_xfer s (ex_tear_in m) && tg_de (vt_valid s) (vt_tg s) then Some (vi_data (vt_vi s (ex_tear_in m))) else None) 0 35
    = [100; 101; 100; 201; 200; 201; 200; 201] /\
  let u := 9%nat in occurrences (fun m => vt_xfer (ex_tear m) (ex_tear_in m)) 0 u = 8%nat /\ vt_xfer (ex_tear u) (ex_tear_in u) = true /\
  length (vt_reads (ex_tear (S u))) = 1%nat.
Proof.
  split; [constructor; cbn; lia|]. split; [|split; [vm_compute; reflexivity|vm_compute; auto]].
  induction n as [|n IH]; [discriminate|].
  change (ex_tear (S n)) with (vt_step 24 2 (ex_tear n) (ex_tear_in n)). set (s := ex_tear n) in *. unfold vt_step. cbn [vt_q ex_tear_in ti_push].
  destruct (vt_q s) as [|a [|b r]]; [congruence| |].
  - cbn [length Nat.ltb Nat.leb]. intro H. apply app_eq_nil in H as [_ H]. discriminate.
  - destruct (vt_valid s && _); cbn [tl]; discriminate.
Qed.
