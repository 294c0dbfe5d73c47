(** Final theorems about the channel synchroniser: C11, C12, C13.
    They hold for every number of channels and every buffer depth >= 2; the
    code uses nchan = 3 and depth = 8. *)
From Coq Require Import ZArith List Bool Lia Arith.
From Verif Require Import Hdl ChanSyncModel ChanSyncProofs.
Import ListNotations.
Open Scope nat_scope.

(** Pointers inside the memory, memory of the right size: true of every state
    the hardware can be in. *)
Definition well_formed (depth : nat) (b : sbuf) : Prop :=
  sb_prod b < depth /\ sb_cons b < depth /\ length (sb_mem b) = depth.

(** The words shown by channel [i] in clock [n]. *)
Definition shown nchan depth s0 inp (i n : nat) : chan := cy_out (cy_run nchan depth s0 inp n) i.

(** [carries inp nchan skew X e]: channel [i] receives the word stream [X i]
    delayed by [skew i] clocks, and all the streams have the DE pattern [e]. *)
Definition carries (inp : nat -> cy_in) (nchan : nat) (skew : nat -> nat)
           (X : nat -> nat -> chan) (e : nat -> bool) : Prop :=
  (forall i t, i < nchan -> cyi_data (inp (t + skew i)) i = X i t) /\
  (forall i t, i < nchan -> ch_de (X i t) = e t).

Lemma synced_step : forall nchan depth s0 inp n, let st := cy_run nchan depth s0 inp in
  cy_synced (st (S n)) = if negb (cyi_valid (inp n)) then false
                         else if cy_some nchan (st n) then cy_all nchan (st n) else cy_synced (st n).
Proof. reflexivity. Qed.

Lemma all_spec : forall nchan s, cy_all nchan s = true <-> forall i, i < nchan -> ch_de (cy_out s i) = false.
Proof.
  intros nchan s. unfold cy_all. rewrite forallb_forall. split.
  - intros H i Hi. specialize (H i). unfold cy_is_control in H. apply negb_true_iff, H, in_seq. lia.
  - intros H i Hi. apply in_seq in Hi. unfold cy_is_control. rewrite H by lia. reflexivity.
Qed.

Lemma some_spec : forall nchan s, cy_some nchan s = false <-> forall i, i < nchan -> ch_de (cy_out s i) = true.
Proof.
  intros nchan s. unfold cy_some. split.
  - intros H i Hi. destruct (ch_de (cy_out s i)) eqn:E; [reflexivity|].
    assert (existsb (cy_is_control s) (seq 0 nchan) = true); [|congruence].
    apply existsb_exists. exists i. split; [apply in_seq; lia|]. unfold cy_is_control. rewrite E. reflexivity.
  - intros H. destruct (existsb _ _) eqn:E; [|reflexivity]. apply existsb_exists in E.
    destruct E as (i & Hi & C). apply in_seq in Hi. unfold cy_is_control in C. rewrite H in C by lia. discriminate.
Qed.

(** Aligned outputs with valid input keep the flag up once a blank word was seen. *)
Lemma synced_when_aligned : forall nchan depth s0 inp k (es : nat -> bool),
  1 <= nchan ->
  (forall n, k <= n -> forall i, i < nchan -> ch_de (shown nchan depth s0 inp i n) = es n) ->
  es k = false ->
  forall n, k < n -> (forall j, k <= j < n -> cyi_valid (inp j) = true) ->
  cy_synced (cy_run nchan depth s0 inp n) = true.
Proof.
  intros nchan depth s0 inp k es Hnc Hal Hk n Hn.
  induction Hn as [|n Hn IH]; intros Hv.
  - rewrite synced_step. rewrite Hv by lia. cbn [negb].
    rewrite (proj2 (all_spec nchan _)).
    + destruct (cy_some _ _) eqn:E; [reflexivity|].
      rewrite some_spec in E. specialize (E 0 ltac:(lia)). specialize (Hal k ltac:(lia) 0 ltac:(lia)).
      unfold shown in Hal. congruence.
    + intros i Hi. specialize (Hal k ltac:(lia) i Hi). unfold shown in Hal. congruence.
  - rewrite synced_step. rewrite Hv by lia. cbn [negb]. rewrite IH by (intros; apply Hv; lia).
    destruct (cy_some _ _) eqn:E; [|reflexivity].
    destruct (es n) eqn:En.
    + exfalso. assert (cy_some nchan (cy_run nchan depth s0 inp n) = false); [|congruence].
      apply some_spec. intros i Hi. rewrite <- En. apply Hal; [lia|exact Hi].
    + apply all_spec. intros i Hi. rewrite <- En. apply Hal; [lia|exact Hi].
Qed.

Theorem C11_skew_removed :
  forall nchan depth, 1 <= nchan -> 2 <= depth ->
  forall s0, (forall i, i < nchan -> well_formed depth (cy_buf s0 i)) ->
  forall inp skew X e, carries inp nchan skew X e ->
  forall smin, (forall i, i < nchan -> smin <= skew i <= smin + depth - 1) ->
  forall b0 b1 b2,
  b0 + 2 * depth <= b1 -> b1 + 3 * depth <= b2 ->
  (forall t, b0 <= t < b1 -> e t = false) ->
  (forall t, b1 <= t < b2 -> e t = true) ->
  e b2 = false ->
  exists T, (forall i, i < nchan -> skew i < T <= skew i + depth) /\
  forall n, b2 + smin + 2 * depth <= n ->
    (forall i, i < nchan -> shown nchan depth s0 inp i n = X i (n - T)) /\
    (forall k, b2 + smin + 2 * depth <= k < n -> e (k - T) = false ->
       (forall j, k <= j < n -> cyi_valid (inp j) = true) ->
       cy_synced (cy_run nchan depth s0 inp n) = true).
Proof.
  intros nchan depth Hnc Hd s0 Hs0 inp skew X e [HX He] smin Hsk b0 b1 b2 H01 H12 Hb Ha Hend.
  destruct (converge nchan depth Hd s0 Hs0 inp skew X e HX He smin Hsk Hnc b0 b1 b2 H01 H12 Hb Ha Hend)
    as (T & M & HM & HL).
  assert (S : forall n, b2 + smin + 2 * depth <= n -> forall i, i < nchan ->
              shown nchan depth s0 inp i n = X i (n - T)).
  { intros n Hn i Hi. apply (lat_out nchan depth Hd s0 Hs0 inp skew X HX i n T Hi). apply HL; [lia|exact Hi]. }
  exists T. split.
  { intros i Hi. pose proof (HL M (Nat.le_refl M) i Hi) as L.
    apply lat_range in L; lia. }
  intros n Hn. split; [apply S, Hn|].
  intros k Hk Ek Hv. apply (synced_when_aligned nchan depth s0 inp k (fun t => e (t - T))); try assumption; try lia.
  intros t Ht i Hi. rewrite S by (try assumption; lia). apply He, Hi.
Qed.
Print Assumptions C11_skew_removed.

(** Hypotheses are met: three channels, skews 5, 0 and 7, any payload. *)
Definition ex_e (t : nat) : bool := Nat.leb 20 (t mod 60).
Definition ex_X (i t : nat) : chan := {| ch_raw := Z.of_nat (i + t); ch_d := 0; ch_c := 0; ch_de := ex_e t |}.
Definition ex_skew (i : nat) : nat := match i with 0 => 5 | 1 => 0 | _ => 7 end.
Definition ex_inp (n : nat) : cy_in :=
  {| cyi_valid := true; cyi_data := fun i => ex_X i (n - ex_skew i) |}.

Example ex_carries : carries ex_inp 3 ex_skew ex_X ex_e.
Proof.
  split; [|reflexivity]. intros i t Hi. cbn [ex_inp cyi_data].
  replace (t + ex_skew i - ex_skew i) with t by lia. reflexivity.
Qed.

Example ex_skew_ok : forall i, i < 3 -> 0 <= ex_skew i <= 0 + 8 - 1.
Proof. intros [|[|[|i]]] H; cbn; lia. Qed.

Example ex_pattern :
  forallb (fun t => Bool.eqb (ex_e t) false) (seq 0 20) = true /\
  forallb (fun t => Bool.eqb (ex_e t) true) (seq 20 40) = true /\ ex_e 60 = false.
Proof. vm_compute. repeat split. Qed.

Example ex_aligned :
  map (fun i => ch_raw (shown 3 8 (cy_init 3 8) ex_inp i 90)) [0; 1; 2] = [82; 83; 84]%Z.
Proof. vm_compute. reflexivity. Qed.

(** The buffer of a channel holds the last [depth] words; [buffer_delay b D]
    says that it shows the word received [D] clocks ago. *)
Definition buffer_delay (depth : nat) (b : sbuf) (D : nat) : Prop :=
  1 <= D <= depth /\ sb_prod b = (sb_cons b + D) mod depth.

Theorem C12_aligned_forever :
  forall nchan depth, 1 <= nchan -> 2 <= depth ->
  forall s0, (forall i, i < nchan -> well_formed depth (cy_buf s0 i)) ->
  forall inp skew X e, carries inp nchan skew X e ->
  forall N T, T <= N ->
  (forall i, i < nchan -> skew i <= T /\
     buffer_delay depth (cy_buf (cy_run nchan depth s0 inp N) i) (T - skew i)) ->
  forall n, N <= n ->
    (forall i, i < nchan ->
       shown nchan depth s0 inp i n = X i (n - T) /\
       shown nchan depth s0 inp i n = cyi_data (inp (n - (T - skew i))) i /\
       buffer_delay depth (cy_buf (cy_run nchan depth s0 inp n) i) (T - skew i)) /\
    (forall k, N <= k < n -> e (k - T) = false ->
       (forall j, k <= j < n -> cyi_valid (inp j) = true) ->
       cy_synced (cy_run nchan depth s0 inp n) = true).
Proof.
  intros nchan depth Hnc Hd s0 Hs0 inp skew X e [HX He] N T HT HB.
  assert (BD : forall b D, wf_buf depth b -> (buffer_delay depth b D <-> dly depth b D)).
  { intros b D (W1 & W2 & _). unfold buffer_delay, dly. split; intros [R E]; split; try assumption.
    - destruct (le_lt_dec depth (sb_cons b + D)).
      + right. replace (sb_cons b + D) with (sb_cons b + D - depth + 1 * depth) in E by lia.
        rewrite Nat.mod_add in E by lia.
        destruct (Nat.eq_dec (sb_cons b + D - depth) depth).
        * lia.
        * rewrite Nat.mod_small in E by lia. lia.
      + left. rewrite Nat.mod_small in E by lia. lia.
    - destruct E as [E|E].
      + rewrite Nat.mod_small by lia. lia.
      + rewrite E. replace (sb_prod b + depth) with (sb_prod b + 1 * depth) by lia.
        rewrite Nat.mod_add, Nat.mod_small by lia. reflexivity. }
  assert (L0 : forall i, i < nchan -> lat nchan depth s0 inp skew i N T).
  { intros i Hi. destruct (HB i Hi) as [H1 H2]. unfold lat. split; [|lia].
    apply BD; [apply (wf_all nchan depth Hd s0 Hs0 inp i N Hi)|exact H2]. }
  pose proof (aligned_forever nchan depth Hd s0 Hs0 inp skew X e HX He N T L0) as L.
  intros n Hn. split.
  - intros i Hi. specialize (L n Hn i Hi).
    pose proof (lat_out nchan depth Hd s0 Hs0 inp skew X HX i n T Hi L) as O.
    split; [exact O|]. destruct L as (L1 & L2 & L3). split.
    + unfold shown in *. rewrite <- HX in O by exact Hi.
      replace (n - (T - skew i)) with (n - T + skew i) by lia. exact O.
    + apply BD; [apply (wf_all nchan depth Hd s0 Hs0 inp i n Hi)|exact L1].
  - intros k Hk Ek Hv.
    apply (synced_when_aligned nchan depth s0 inp k (fun t => e (t - T))); try assumption; try lia.
    intros t Ht i Hi. unfold shown.
    rewrite (lat_out nchan depth Hd s0 Hs0 inp skew X HX i t T Hi (L t ltac:(lia) i Hi)). apply He, Hi.
Qed.
Print Assumptions C12_aligned_forever.

Example ex_aligned_state :
  (* the state reached in the example above satisfies the hypothesis, with T = 8 *)
  forallb (fun i => let b := cy_buf (cy_run 3 8 (cy_init 3 8) ex_inp 90) i in
                    let D := 8 - ex_skew i in
                    Nat.leb 1 D && Nat.leb D 8 && Nat.eqb (sb_prod b) ((sb_cons b + D) mod 8)) [0; 1; 2] = true.
Proof. vm_compute. reflexivity. Qed.

(** C13: the flag is up exactly when, at some past clock with valid input, all
    channels showed control words, and since then the input stayed valid and
    the channels never disagreed. *)
Theorem C13_flag_meaning :
  forall nchan depth inp n,
  1 <= nchan ->
  let out i j := shown nchan depth (cy_init nchan depth) inp i j in
  let all_control j := forall i, i < nchan -> ch_de (out i j) = false in
  let all_data j := forall i, i < nchan -> ch_de (out i j) = true in
  cy_synced (cy_run nchan depth (cy_init nchan depth) inp n) = true <->
  exists k, k < n /\ cyi_valid (inp k) = true /\ all_control k /\
    forall j, k < j < n -> cyi_valid (inp j) = true /\ (all_control j \/ all_data j).
Proof.
  intros nchan depth inp n Hnc out all_control all_data.
  induction n as [|n IH].
  - split; [discriminate|]. intros (k & Hk & _). lia.
  - rewrite synced_step.
    set (s := cy_run nchan depth (cy_init nchan depth) inp n) in *.
    assert (AC : cy_all nchan s = true <-> all_control n) by apply all_spec.
    assert (AD : cy_some nchan s = false <-> all_data n) by apply some_spec.
    destruct (cyi_valid (inp n)) eqn:V; cbn [negb].
    + destruct (cy_some nchan s) eqn:So.
      * split.
        -- intros A. exists n. repeat split; try lia; try assumption; try (apply AC, A).
        -- intros (k & Hk & Vk & Ck & Hj). apply AC.
           destruct (Nat.eq_dec k n) as [->|]; [exact Ck|].
           destruct (Hj n ltac:(lia)) as [_ [C|D]]; [exact C|]. apply AD in D. discriminate.
      * rewrite IH. split.
        -- intros (k & Hk & Vk & Ck & Hj). exists k. split; [lia|]. split; [exact Vk|]. split; [exact Ck|].
           intros j Hjr. destruct (Nat.eq_dec j n) as [->|]; [|apply Hj; lia].
           split; [exact V|]. right. apply AD. reflexivity.
        -- intros (k & Hk & Vk & Ck & Hj).
           destruct (Nat.eq_dec k n) as [->|].
           ++ exfalso. pose proof (proj1 AD eq_refl 0 ltac:(lia)) as D. specialize (Ck 0 ltac:(lia)).
              unfold out in *. congruence.
           ++ exists k. split; [lia|]. split; [exact Vk|]. split; [exact Ck|]. intros j Hjr. apply Hj. lia.
    + split; [discriminate|]. intros (k & Hk & Vk & Ck & Hj).
      destruct (Nat.eq_dec k n) as [->|]; [congruence|].
      destruct (Hj n ltac:(lia)) as [Hv _]. congruence.
Qed.
Print Assumptions C13_flag_meaning.

Example ex_flag : cy_synced (cy_run 3 8 (cy_init 3 8) ex_inp 90) = true /\ cy_synced (cy_run 3 8 (cy_init 3 8) ex_inp 40) = false.
Proof. vm_compute. split; reflexivity. Qed.
