(** Lemmas about the channel synchroniser. *)
From Coq Require Import ZArith List Bool Lia Arith.
From Verif Require Import Hdl ChanSyncModel.
Import ListNotations.
Open Scope nat_scope.

Definition wf_buf (depth : nat) (b : sbuf) : Prop :=
  sb_prod b < depth /\ sb_cons b < depth /\ length (sb_mem b) = depth.

Lemma upd_length : forall (A : Type) p (x : A) l, length (upd p x l) = length l.
Proof. intros A p x l. revert p. induction l as [|a r IH]; intros [|p]; cbn; auto. Qed.

Lemma nth_upd : forall (A : Type) p (x d : A) l a, p < length l ->
  nth a (upd p x l) d = if Nat.eqb a p then x else nth a l d.
Proof.
  intros A p x d l. revert p. induction l as [|b r IH]; intros p a Hp; [cbn in Hp; lia|].
  destruct p as [|p]; destruct a as [|a]; cbn [upd nth Nat.eqb]; try reflexivity.
  apply IH. cbn in Hp. lia.
Qed.

Section ChanSync.
Variables nchan depth : nat.
Hypothesis Hdepth : 2 <= depth.
Variable s0 : cy_st.
Hypothesis Hs0 : forall i, i < nchan -> wf_buf depth (cy_buf s0 i).
Variable inp : nat -> cy_in.
Let st := cy_run nchan depth s0 inp.
Let din (i n : nat) := cyi_data (inp n) i.
Let buf (i n : nat) := cy_buf (st n) i.
Let out (i n : nat) := cy_out (st n) i.
Let all (n : nat) := cy_all nchan (st n).

Lemma inc_lt : forall p, p < depth -> inc depth p < depth.
Proof. intros p H. unfold inc. destruct (Nat.eqb_spec p (depth - 1)); lia. Qed.

Lemma buf_S : forall i n, i < nchan ->
  buf i (S n) = sb_step depth (buf i n) (ch_de (out i n) || all n) (din i n).
Proof.
  intros i n Hi. unfold buf, st, cy_run. cbn [at_]. unfold cy_step at 1.
  unfold cy_buf at 1. cbn [cy_bufs].
  rewrite nth_map_seq by exact Hi.
  unfold cy_is_control at 1. rewrite negb_involutive. reflexivity.
Qed.

Lemma wf_all : forall i n, i < nchan -> wf_buf depth (buf i n).
Proof.
  intros i n Hi. induction n as [|n (IH1 & IH2 & IH3)]; [apply Hs0, Hi|].
  rewrite buf_S by exact Hi. unfold sb_step, wf_buf; cbn [sb_prod sb_cons sb_mem].
  split; [apply inc_lt, IH1|]. split; [|rewrite upd_length; exact IH3].
  destruct (_ || _); [apply inc_lt|]; assumption.
Qed.

(** [dly b D]: the word read is the one written [D] clocks ago. *)
Definition dly (b : sbuf) (D : nat) : Prop :=
  1 <= D <= depth /\ (sb_cons b + D = sb_prod b \/ sb_cons b + D = sb_prod b + depth).

Lemma dly_exists : forall b, wf_buf depth b -> exists D, dly b D.
Proof.
  intros b (H1 & H2 & _). destruct (le_lt_dec (sb_prod b) (sb_cons b)).
  - exists (sb_prod b + depth - sb_cons b). unfold dly. lia.
  - exists (sb_prod b - sb_cons b). unfold dly. lia.
Qed.

Lemma dly_unique : forall b D D', wf_buf depth b -> dly b D -> dly b D' -> D = D'.
Proof. intros b D D' (? & ? & _) [? ?] [? ?]. lia. Qed.

Lemma dly_step_re : forall b D x, wf_buf depth b -> dly b D -> dly (sb_step depth b true x) D.
Proof.
  intros b D x (H1 & H2 & _) [H3 H4]. unfold dly, sb_step; cbn [sb_prod sb_cons].
  split; [lia|]. unfold inc.
  destruct (Nat.eqb_spec (sb_prod b) (depth - 1)); destruct (Nat.eqb_spec (sb_cons b) (depth - 1)); lia.
Qed.

Lemma dly_step_stall : forall b D x, wf_buf depth b -> dly b D ->
  dly (sb_step depth b false x) (if Nat.eqb D depth then 1 else D + 1).
Proof.
  intros b D x (H1 & H2 & _) [H3 H4]. unfold dly, sb_step; cbn [sb_prod sb_cons]. unfold inc.
  destruct (Nat.eqb_spec D depth); destruct (Nat.eqb_spec (sb_prod b) (depth - 1)); lia.
Qed.

(** Address written [j] clocks ago. *)
Definition ago (p j : nat) : nat := if Nat.leb j p then p - j else p + depth - j.

Lemma hist : forall i n, i < nchan -> forall j, 1 <= j <= depth -> j <= n ->
  nth (ago (sb_prod (buf i n)) j) (sb_mem (buf i n)) chan0 = din i (n - j).
Proof.
  intros i n Hi. induction n as [|n IH]; intros j Hj Hn; [lia|].
  destruct (wf_all i n Hi) as (H1 & H2 & H3).
  rewrite buf_S by exact Hi. unfold sb_step; cbn [sb_prod sb_mem].
  rewrite nth_upd by lia.
  destruct (Nat.eq_dec j 1) as [->|Hj1].
  - replace (ago (inc depth (sb_prod (buf i n))) 1) with (sb_prod (buf i n)).
    + rewrite Nat.eqb_refl. f_equal. lia.
    + unfold ago, inc. destruct (Nat.eqb_spec (sb_prod (buf i n)) (depth - 1));
        destruct (Nat.leb_spec 1 (sb_prod (buf i n) + 1)); cbn [Nat.leb]; lia.
  - replace (ago (inc depth (sb_prod (buf i n))) j) with (ago (sb_prod (buf i n)) (j - 1)).
    + destruct (Nat.eqb_spec (ago (sb_prod (buf i n)) (j - 1)) (sb_prod (buf i n))) as [E|E].
      * exfalso. unfold ago in E. destruct (Nat.leb_spec (j - 1) (sb_prod (buf i n))); lia.
      * rewrite IH by lia. f_equal. lia.
    + unfold ago, inc. destruct (Nat.eqb_spec (sb_prod (buf i n)) (depth - 1));
        repeat match goal with |- context [Nat.leb ?a ?b] => destruct (Nat.leb_spec a b) end; lia.
Qed.

Lemma out_dly : forall i n D, i < nchan -> dly (buf i n) D -> D <= n -> out i n = din i (n - D).
Proof.
  intros i n D Hi HD Hn. unfold out, cy_out, sb_dout. fold (buf i n).
  rewrite <- (hist i n Hi D) by (destruct HD; lia). f_equal.
  destruct (wf_all i n Hi) as (H1 & H2 & _). destruct HD as [H3 H4].
  unfold ago. destruct (Nat.leb_spec D (sb_prod (buf i n))); lia.
Qed.

Lemma next_dly : forall i n D, i < nchan -> dly (buf i n) D ->
  dly (buf i (S n)) (if ch_de (out i n) || all n then D else if Nat.eqb D depth then 1 else D + 1).
Proof.
  intros i n D Hi HD. rewrite buf_S by exact Hi.
  destruct (ch_de (out i n) || all n).
  - apply dly_step_re; [apply wf_all, Hi|exact HD].
  - apply dly_step_stall; [apply wf_all, Hi|exact HD].
Qed.

(** ** Streams with a common DE pattern and per-channel skew *)

Variable skew : nat -> nat.
Variable X : nat -> nat -> chan.
Variable e : nat -> bool.
Hypothesis HX : forall i t, i < nchan -> din i (t + skew i) = X i t.
Hypothesis He : forall i t, i < nchan -> ch_de (X i t) = e t.

(** [lat i n T]: at clock [n] channel [i] shows word [n - T] of its stream. *)
Definition lat (i n T : nat) : Prop := dly (buf i n) (T - skew i) /\ skew i <= T /\ T <= n.

Lemma lat_out : forall i n T, i < nchan -> lat i n T -> out i n = X i (n - T).
Proof.
  intros i n T Hi (H1 & H2 & H3).
  rewrite (out_dly i n (T - skew i) Hi H1) by lia.
  rewrite <- HX by exact Hi. f_equal. lia.
Qed.

Lemma lat_de : forall i n T, i < nchan -> lat i n T -> ch_de (out i n) = e (n - T).
Proof. intros i n T Hi H. rewrite (lat_out i n T Hi H). apply He, Hi. Qed.

Lemma lat_range : forall i n T, lat i n T -> skew i + 1 <= T <= skew i + depth.
Proof. intros i n T ([H _] & H2 & H3). lia. Qed.

Lemma lat_unique : forall i n T T', i < nchan -> lat i n T -> lat i n T' -> T = T'.
Proof.
  intros i n T T' Hi (H1 & H2 & H3) (H1' & H2' & H3').
  pose proof (dly_unique _ _ _ (wf_all i n Hi) H1 H1'). lia.
Qed.

Lemma lat_exists : forall i n, i < nchan -> skew i + depth <= n -> exists T, lat i n T.
Proof.
  intros i n Hi Hn. destruct (dly_exists _ (wf_all i n Hi)) as [D HD].
  exists (D + skew i). unfold lat. replace (D + skew i - skew i) with D by lia.
  destruct HD as [HD1 HD2]. unfold dly. lia.
Qed.

(** Next latency: unchanged, or one more clock, or wrap to the minimum. *)
Lemma lat_keep : forall i n T, i < nchan -> lat i n T ->
  e (n - T) = true \/ all n = true -> lat i (S n) T.
Proof.
  intros i n T Hi H Hor. pose proof (lat_de i n T Hi H) as E.
  destruct H as (H1 & H2 & H3). unfold lat. split; [|lia].
  pose proof (next_dly i n _ Hi H1) as N. rewrite E in N.
  replace (e (n - T) || all n) with true in N; [exact N|].
  symmetry. apply orb_true_iff. exact Hor.
Qed.

Lemma lat_stall : forall i n T, i < nchan -> lat i n T ->
  e (n - T) = false -> all n = false ->
  lat i (S n) (if Nat.eqb T (skew i + depth) then skew i + 1 else T + 1).
Proof.
  intros i n T Hi H E A. pose proof (lat_de i n T Hi H) as E'. pose proof (lat_range i n T H) as R.
  destruct H as (H1 & H2 & H3).
  pose proof (next_dly i n _ Hi H1) as N. rewrite E', E, A in N. cbn [orb] in N.
  unfold lat. destruct (Nat.eqb_spec T (skew i + depth)) as [Q|Q].
  - replace (Nat.eqb (T - skew i) depth) with true in N by (symmetry; apply Nat.eqb_eq; lia).
    replace (skew i + 1 - skew i) with 1 by lia. split; [exact N|lia].
  - replace (Nat.eqb (T - skew i) depth) with false in N by (symmetry; apply Nat.eqb_neq; lia).
    replace (T + 1 - skew i) with (T - skew i + 1) by lia. split; [exact N|lia].
Qed.

Lemma all_true : forall n (T : nat -> nat), (forall i, i < nchan -> lat i n (T i)) ->
  (forall i, i < nchan -> e (n - T i) = false) -> all n = true.
Proof.
  intros n T HL HE. unfold all, cy_all. apply forallb_forall. intros i Hi.
  apply in_seq in Hi. unfold cy_is_control. fold (out i n).
  rewrite (lat_de i n (T i)) by (try apply HL; lia). rewrite HE by lia. reflexivity.
Qed.

Lemma all_false : forall n i T, i < nchan -> lat i n T -> e (n - T) = true -> all n = false.
Proof.
  intros n i T Hi HL HE. destruct (all n) eqn:A; [|reflexivity].
  unfold all, cy_all in A. rewrite forallb_forall in A.
  specialize (A i). unfold cy_is_control in A. fold (out i n) in A.
  rewrite (lat_de i n T Hi HL), HE in A. discriminate A. apply in_seq; lia.
Qed.

(** *** Stability *)

Lemma aligned_step : forall n T, (forall i, i < nchan -> lat i n T) ->
  forall i, i < nchan -> lat i (S n) T.
Proof.
  intros n T HL i Hi. apply lat_keep; [exact Hi|apply HL, Hi|].
  destruct (e (n - T)) eqn:E; [left; reflexivity|right].
  apply (all_true n (fun _ => T)); auto.
Qed.

Lemma aligned_forever : forall N T, (forall i, i < nchan -> lat i N T) ->
  forall n, N <= n -> forall i, i < nchan -> lat i n T.
Proof.
  intros N T HL n Hn. induction Hn as [|n Hn IH]; [exact HL|].
  apply aligned_step, IH.
Qed.

(** *** Convergence *)

Variable smin : nat.
Hypothesis Hsk : forall i, i < nchan -> smin <= skew i <= smin + depth - 1.
Hypothesis Hnc : 1 <= nchan.
Variables b0 b1 b2 : nat.
Hypothesis Hb01 : b0 + 2 * depth <= b1.
Hypothesis Hb12 : b1 + 3 * depth <= b2.
Hypothesis Hblank : forall t, b0 <= t < b1 -> e t = false.
Hypothesis Hactive : forall t, b1 <= t < b2 -> e t = true.
Hypothesis Hend : e b2 = false.

(** Latencies of all channels as a function (finite choice). *)
Lemma choose : forall (P : nat -> nat -> Prop) k, (forall i, i < k -> exists T, P i T) ->
  exists f, forall i, i < k -> P i (f i).
Proof.
  intros P k. induction k as [|k IH]; intros H.
  - exists (fun _ => 0). lia.
  - destruct IH as [f Hf]; [intros; apply H; lia|].
    destruct (H k ltac:(lia)) as [T HT].
    exists (fun i => if Nat.eqb i k then T else f i). intros i Hi.
    destruct (Nat.eqb_spec i k) as [->|]; [exact HT|apply Hf; lia].
Qed.

Lemma argmin : forall (f : nat -> nat) k, 1 <= k ->
  exists m, m < k /\ forall i, i < k -> f m <= f i.
Proof.
  intros f k Hk. induction Hk as [|k Hk (m & H1 & H2)].
  - exists 0. split; [lia|]. intros i Hi. replace i with 0 by lia. lia.
  - destruct (le_lt_dec (f m) (f k)).
    + exists m. split; [lia|]. intros i Hi. destruct (Nat.eq_dec i k) as [->|]; [lia|apply H2; lia].
    + exists k. split; [lia|]. intros i Hi. destruct (Nat.eq_dec i k) as [->|]; [lia|].
      specialize (H2 i ltac:(lia)). lia.
Qed.

Lemma argmax : forall (f : nat -> nat) k, 1 <= k ->
  exists m, m < k /\ forall i, i < k -> f i <= f m.
Proof.
  intros f k Hk. induction Hk as [|k Hk (m & H1 & H2)].
  - exists 0. split; [lia|]. intros i Hi. replace i with 0 by lia. lia.
  - destruct (le_lt_dec (f k) (f m)).
    + exists m. split; [lia|]. intros i Hi. destruct (Nat.eq_dec i k) as [->|]; [lia|apply H2; lia].
    + exists k. split; [lia|]. intros i Hi. destruct (Nat.eq_dec i k) as [->|]; [lia|].
      specialize (H2 i ltac:(lia)). lia.
Qed.

(** Phase 1: in the blanking period all channels run, up to the clock in which
    the earliest channel [m] shows the first active word. *)
Lemma phase1 : exists (T0 : nat -> nat) m, m < nchan /\
  (forall i, i < nchan -> T0 m <= T0 i) /\
  (forall i, i < nchan -> skew i + 1 <= T0 i <= skew i + depth) /\
  forall i, i < nchan -> lat i (b1 + T0 m) (T0 i).
Proof.
  set (N := b0 + smin + 2 * depth - 1).
  destruct (choose (fun i T => lat i N T) nchan) as [T0 HT0].
  { intros i Hi. apply lat_exists; [exact Hi|]. specialize (Hsk i Hi). unfold N; lia. }
  destruct (argmin T0 nchan Hnc) as (m & Hm & Hmin).
  exists T0, m. split; [exact Hm|]. split; [exact Hmin|].
  assert (R : forall i, i < nchan -> skew i + 1 <= T0 i <= skew i + depth)
    by (intros i Hi; apply (lat_range i N), HT0, Hi).
  split; [exact R|].
  assert (Q : forall n, N <= n -> n <= b1 + T0 m -> forall i, i < nchan -> lat i n (T0 i)).
  { intros n Hn. induction Hn as [|n Hn IH]; intros Hle i Hi; [apply HT0, Hi|].
    apply lat_keep; [exact Hi|apply IH; [lia|exact Hi]|]. right.
    apply (all_true n T0); [intros; apply IH; [lia|assumption]|].
    intros j Hj. apply Hblank. specialize (Hmin j Hj). specialize (R j Hj). specialize (Hsk j Hj).
    unfold N in Hn. lia. }
  apply Q; [|lia]. specialize (R m Hm). specialize (Hsk m Hm). unfold N. lia.
Qed.

(** Phase 2: while the earliest channel is active, the others search for
    their first active words. *)
Definition found (T0 : nat -> nat) (m : nat) (i n T : nat) : Prop :=
  lat i n T /\ b1 <= n - T /\ ((T = T0 m /\ T0 i = T0 m) \/ T = skew i + 1).
Definition waiting (k i n T : nat) : Prop :=
  lat i n T /\ b0 <= n - T < b1 /\ k + 2 <= T - skew i + depth - 1.

Lemma phase2 : forall T0 m, m < nchan ->
  (forall i, i < nchan -> T0 m <= T0 i) ->
  (forall i, i < nchan -> skew i + 1 <= T0 i <= skew i + depth) ->
  (forall i, i < nchan -> lat i (b1 + T0 m) (T0 i)) ->
  forall k, k <= 2 * depth -> 
  lat m (b1 + T0 m + k) (T0 m) /\
  forall i, i < nchan -> exists T,
    found T0 m i (b1 + T0 m + k) T \/ waiting k i (b1 + T0 m + k) T.
Proof.
  intros T0 m Hm Hmin R HL k. induction k as [|k IH]; intros Hk.
  - rewrite Nat.add_0_r. split; [apply HL, Hm|].
    intros i Hi. exists (T0 i). specialize (HL i Hi). specialize (Hmin i Hi).
    pose proof (R i Hi). pose proof (R m Hm). pose proof (Hsk i Hi). pose proof (Hsk m Hm).
    destruct (Nat.eq_dec (T0 i) (T0 m)) as [E|E].
    + left. unfold found. split; [exact HL|]. split; [lia|]. left; auto.
    + right. unfold waiting. split; [exact HL|]. lia.
  - destruct (IH ltac:(lia)) as [IHm IHi]. clear IH.
    set (n := b1 + T0 m + k) in *.
    replace (b1 + T0 m + S k) with (S n) by (unfold n; lia).
    pose proof (R m Hm) as Rm. pose proof (Hsk m Hm) as Sm.
    assert (Em : e (n - T0 m) = true) by (apply Hactive; unfold n; lia).
    assert (A : all n = false) by (apply (all_false n m (T0 m)); assumption).
    split; [apply lat_keep; auto|].
    intros i Hi. pose proof (R i Hi) as Ri. pose proof (Hsk i Hi) as Si. pose proof (Hmin i Hi) as Mi.
    destruct (IHi i Hi) as [T [(L & B & F)|(L & B & W)]].
    + exists T. left. unfold found. pose proof (lat_range i n T L).
      assert (e (n - T) = true) by (apply Hactive; unfold n in *; lia).
      split; [apply lat_keep; auto|]. split; [lia|exact F].
    + assert (E : e (n - T) = false) by (apply Hblank; lia).
      pose proof (lat_stall i n T Hi L E A) as L'.
      destruct (Nat.eqb_spec T (skew i + depth)) as [Q|Q].
      * exists (skew i + 1). destruct (le_lt_dec b1 (S n - (skew i + 1))).
        -- left. unfold found. split; [exact L'|]. split; [lia|]. right; reflexivity.
        -- right. unfold waiting. split; [exact L'|]. unfold n in *. lia.
      * exists (T + 1). right. unfold waiting. split; [exact L'|]. lia.
Qed.

(** Phase 3: all channels active; then each waits at the first blank word. *)
Lemma phase3 : forall N (T1 : nat -> nat),
  (forall i, i < nchan -> lat i N (T1 i) /\ b1 <= N - T1 i < b2) ->
  (forall i j, i < nchan -> j < nchan -> T1 j <= skew i + depth) ->
  exists T M, N <= M /\ M <= b2 + smin + 2 * depth /\ forall i, i < nchan -> lat i M T.
Proof.
  intros N T1 HL HC. destruct (argmax T1 nchan Hnc) as (m & Hm & Hmax).
  pose proof (lat_range m N (T1 m) (proj1 (HL m Hm))) as Rm.
  assert (Q : forall n, N <= n -> n <= b2 + T1 m ->
     forall i, i < nchan ->
       (lat i n (T1 i) /\ b1 <= n - T1 i < b2) \/ (lat i n (n - b2) /\ T1 i <= n - b2 /\ b2 <= n)).
  { intros n Hn. induction Hn as [|n Hn IH]; intros Hle i Hi.
    - left. apply HL, Hi.
    - specialize (IH ltac:(lia)).
      assert (Lm : lat m n (T1 m) /\ b1 <= n - T1 m < b2).
      { destruct (IH m Hm) as [L|(L & L2 & L3)]; [exact L|].
        exfalso. lia. }
      assert (A : all n = false).
      { apply (all_false n m (T1 m)); [exact Hm|apply Lm|]. apply Hactive. lia. }
      destruct (IH i Hi) as [(L & B)|(L & B & B2)].
      + assert (L' : lat i (S n) (T1 i)).
        { apply lat_keep; [exact Hi|exact L|]. left. apply Hactive. lia. }
        destruct (Nat.eq_dec (S n - T1 i) b2) as [E|E].
        * right. destruct L as (La & Lb & Lc).
          assert (ET : T1 i = S n - b2) by lia. rewrite <- ET. split; [exact L'|lia].
        * left. split; [exact L'|]. destruct L as (La & Lb & Lc). lia.
      + right. assert (E : e (n - (n - b2)) = false) by (replace (n - (n - b2)) with b2 by lia; exact Hend).
        pose proof (lat_stall i n _ Hi L E A) as L'.
        pose proof (HC i m Hi Hm).
        destruct (Nat.eqb_spec (n - b2) (skew i + depth)) as [Q|Q]; [exfalso; lia|].
        replace (n - b2 + 1) with (S n - b2) in L' by lia. split; [exact L'|lia]. }
  exists (T1 m), (b2 + T1 m).
  destruct (HL m Hm) as [(La & Lb & Lc) B].
  split; [lia|]. split; [specialize (Hsk m Hm); lia|].
  intros i Hi. destruct (Q (b2 + T1 m) ltac:(lia) ltac:(lia) i Hi) as [(L & B2)|(L & B2 & B3)].
  - specialize (Hmax i Hi). exfalso. lia.
  - replace (b2 + T1 m - b2) with (T1 m) in L by lia. exact L.
Qed.

Lemma converge : exists T M, M <= b2 + smin + 2 * depth /\
  forall n, M <= n -> forall i, i < nchan -> lat i n T.
Proof.
  destruct phase1 as (T0 & m & Hm & Hmin & R & HL).
  pose proof (phase2 T0 m Hm Hmin R HL) as P2.
  set (N := b1 + T0 m + 2 * depth).
  destruct (P2 (2 * depth) ltac:(lia)) as [_ P].
  destruct (choose (fun i T => found T0 m i N T) nchan) as [T1 HT1].
  { intros i Hi. destruct (P i Hi) as [T [F|(L & B & W)]]; [exists T; exact F|exfalso].
    pose proof (lat_range _ _ _ L). lia. }
  destruct (phase3 N T1) as (T & M & H1 & H2 & H3).
  - intros i Hi. destruct (HT1 i Hi) as (L & B & F). split; [exact L|].
    pose proof (lat_range _ _ _ L). pose proof (R m Hm). pose proof (R i Hi).
    pose proof (Hmin i Hi). split; [exact B|]. unfold N in *. lia.
  - intros i j Hi Hj. destruct (HT1 j Hj) as (L & B & [[F _]|F]).
    + rewrite F. pose proof (Hmin i Hi). pose proof (R i Hi). lia.
    + rewrite F. pose proof (Hsk i Hi). pose proof (Hsk j Hj). lia.
  - exists T, M. split; [exact H2|]. intros n Hn. apply (aligned_forever M T H3 n Hn).
Qed.

End ChanSync.
