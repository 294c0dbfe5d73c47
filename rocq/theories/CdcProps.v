(** C73-C76: commands and status between clock domains. *)
From Coq Require Import ZArith List Bool Arith Lia.
From Verif Require Import Hdl Trace CdcModel CdcProofs.
Import ListNotations.
Open Scope nat_scope.

(** * C73: command pulses *)

(** Edges of the destination clock strictly between two instants. *)
Definition between (e : nat -> bool) (p n : nat) : nat := occurrences e (S p) (n - S p).
(** Two instants lie in different destination clocks. *)
Definition separated (e : nat -> bool) (p q : nat) : Prop :=
  exists t, Nat.min p q < t <= Nat.max p q /\ e t = true.

Section C73.
(** Any schedule of the two clocks, any commands. *)
Variables (src dst cmd : nat -> bool).
Definition cdc_inp (n : nat) := (src n, dst n, cmd n).
(** A command is given at an edge of the source clock. *)
Definition given (n : nat) : Prop := src n = true /\ cmd n = true.
(** What the destination domain sees in the clock that ends at its next edge. *)
Definition seen (n : nat) : bool := ps_o (ps_run cdc_inp n).

Lemma given_pulse : forall n, given n <-> pulse cdc_inp n = true.
Proof. intros n. unfold given, pulse, eA, cdc_inp. cbn. rewrite andb_true_iff. tauto. Qed.

Theorem C73_delivered : forall p n, given p -> (forall q, given q -> q <> p -> separated dst p q) ->
  p < n -> between dst p n = 2 -> seen n = true.
Proof.
  intros p n G S L B. unfold seen. rewrite ps_o_count.
  destruct (two_edges cdc_inp p n L) as (b & -> & Pb & Nb); [exact B|].
  change (eB cdc_inp) with dst in *.
  assert (U : forall u, u < b -> (forall t, u < t < b -> t <= p -> dst t = false) -> pulse cdc_inp u = true -> u = p).
  { intros u Hu Hn E. destruct (Nat.eq_dec u p) as [|N]; [assumption|]. exfalso.
    apply given_pulse in E. destruct (S u E N) as (t & T & D).
    destruct (Nat.le_gt_cases t p) as [Q|Q]; [rewrite Hn in D by lia|rewrite Nb in D by lia]; discriminate. }
  destruct (prev dst b) as [a|] eqn:A.
  - apply prev_some in A as (La & Ea & Na).
    assert (Ha : a <= p) by (destruct (Nat.le_gt_cases a p); [assumption|rewrite Nb in Ea by lia; discriminate]).
    rewrite (occ_one _ _ _ p); [reflexivity|lia|apply given_pulse; exact G|].
    intros u Hu. apply U; [lia|]. intros t T _. apply Na. lia.
  - pose proof (prev_none _ _ A) as Na.
    rewrite (occ_one _ _ _ p); [reflexivity|lia|apply given_pulse; exact G|].
    intros u Hu. apply U; [lia|]. intros t T _. apply Na. lia.
Qed.

Theorem C73_nothing_else : forall n, seen n = true -> exists p, p < n /\ given p /\ between dst p n = 2.
Proof.
  intros n H. unfold seen in H. rewrite ps_o_count in H. change (eB cdc_inp) with dst in H.
  destruct (prev2 dst n) as [b|] eqn:B; [|discriminate].
  destruct (prev2_count cdc_inp n b B) as (Lb & Eb & Cb). change (eB cdc_inp) with dst in *.
  assert (W : exists p, p < b /\ pulse cdc_inp p = true /\ (forall t, p < t < b -> dst t = false)).
  { destruct (prev dst b) as [a|] eqn:A.
    - apply prev_some in A as (La & Ea & Na).
      destruct (occ_pos (pulse cdc_inp) a (b - a)) as (p & Hp & Pp).
      { intros Z. rewrite Z in H. discriminate. }
      exists p. split; [lia|]. split; [exact Pp|]. intros; apply Na; lia.
    - pose proof (prev_none _ _ A) as Na.
      destruct (occ_pos (pulse cdc_inp) 0 b) as (p & Hp & Pp).
      { intros Z. rewrite Z in H. discriminate. }
      exists p. split; [lia|]. split; [exact Pp|]. intros; apply Na; lia. }
  destruct W as (p & Lp & Pp & Np). exists p. split; [lia|]. split; [apply given_pulse; exact Pp|].
  unfold between. replace (n - S p) with ((b - S p) + (1 + (n - S b))) by lia.
  rewrite !occ_app. replace (S p + (b - S p)) with b by lia. cbn [occurrences]. rewrite Nat.add_0_r, Eb.
  rewrite occ_zero by (intros; apply Np; lia). replace (b + 1) with (S b) by lia. rewrite Cb. reflexivity.
Qed.
End C73.

(** Without the separation the claim is false: two commands within one destination clock cancel, the
    destination domain never sees anything. *)
Theorem C73_close_commands_cancel : forall src dst cmd p q, given src cmd p -> given src cmd q -> p < q ->
  (forall r, given src cmd r -> r = p \/ r = q) -> ~ separated dst p q ->
  forall n, seen src dst cmd n = false.
Proof.
  intros src dst cmd p q Gp Gq L O N n. unfold seen. rewrite ps_o_count. change (eB (cdc_inp src dst cmd)) with dst.
  set (f := pulse (cdc_inp src dst cmd)).
  assert (Fp : f p = true) by (apply given_pulse; exact Gp). assert (Fq : f q = true) by (apply given_pulse; exact Gq).
  assert (Fo : forall r, f r = true -> r = p \/ r = q) by (intros r R; apply O, (given_pulse src dst cmd); exact R).
  assert (Fz : forall a m, (forall r, a <= r < a + m -> r <> p /\ r <> q) -> occurrences f a m = 0).
  { intros a m H. apply occ_zero. intros t T. destruct (f t) eqn:E; [|reflexivity]. apply Fo in E. apply H in T. lia. }
  assert (F2 : forall a m, a <= p -> q < a + m -> occurrences f a m = 2).
  { intros a m A B. replace m with ((q - a) + (1 + (a + m - S q))) by lia. rewrite !occ_app.
    rewrite (occ_one f a (q - a) p); [|lia|exact Fp|intros u U E; apply Fo in E; lia].
    replace (a + (q - a)) with q by lia. cbn [occurrences]. rewrite Nat.add_0_r, Fq. rewrite Fz by (intros; lia). reflexivity. }
  assert (K : forall t, p < t <= q -> dst t = false).
  { intros t T. destruct (dst t) eqn:E; [|reflexivity]. exfalso. apply N. exists t. split; [lia|exact E]. }
  destruct (prev2 dst n) as [b|] eqn:B; [|reflexivity].
  destruct (prev2_count (cdc_inp src dst cmd) n b B) as (_ & Eb & _). change (eB (cdc_inp src dst cmd)) with dst in Eb.
  assert (Hb : b <= p \/ q < b).
  { destruct (Nat.le_gt_cases b p); [left; assumption|]. right.
    destruct (Nat.le_gt_cases b q); [rewrite K in Eb by lia; discriminate|assumption]. }
  destruct (prev dst b) as [a|] eqn:A.
  - apply prev_some in A as (La & Ea & _).
    assert (Ha : a <= p \/ q < a).
    { destruct (Nat.le_gt_cases a p); [left; assumption|]. right.
      destruct (Nat.le_gt_cases a q); [rewrite K in Ea by lia; discriminate|assumption]. }
    destruct Hb as [Hb|Hb]; [rewrite Fz by (intros; lia); reflexivity|].
    destruct Ha as [Ha|Ha]; [rewrite F2 by lia; reflexivity|rewrite Fz by (intros; lia); reflexivity].
  - destruct Hb as [Hb|Hb]; [rewrite Fz by (intros; lia); reflexivity|rewrite F2 by lia; reflexivity].
Qed.
Example C73_close_case : let src := fun _ : nat => true in let dst := fun n => n mod 5 =? 1 in
  let cmd := fun n => (n =? 2) || (n =? 3) in
  given src cmd 2 /\ given src cmd 3 /\ ~ separated dst 2 3.
Proof.
  cbv zeta. split; [split; reflexivity|]. split; [split; reflexivity|].
  intros (t & T & E). assert (t = 3) as -> by (cbn in T; lia). discriminate E.
Qed.
Example C73_case : let src := fun n => Nat.even n in let dst := fun n => n mod 3 =? 1 in let cmd := fun n => n =? 4 in
  given src cmd 4 /\ between dst 4 12 = 2 /\ seen src dst cmd 12 = true /\ seen src dst cmd 14 = false.
Proof. vm_compute. auto. Qed.
Print Assumptions C73_delivered.
Print Assumptions C73_nothing_else.
Print Assumptions C73_close_commands_cancel.

(** * C74: delay line commands *)
Section C74.
(** Any schedule of the two clocks, any writes, any delay line. *)
Variable i : nat -> dc_in.
(** A command is written. *)
Definition written (n : nat) : Prop :=
  dci_sys (i n) = true /\ (dci_cal (i n) = true \/ dci_inc (i n) = true \/ dci_dec (i n) = true).
(** The busy bit software reads. *)
Definition busy_bit (n : nat) : bool := dc_status (dc_run i n).
(** Software writes commands only while the busy bit is 0. *)
Definition waits : Prop := forall n, written n -> busy_bit n = false.
(** The delay line is told to do something at the edge [n] of its clock. *)
Definition acts (n : nat) : Prop :=
  dci_pix (i n) = true /\ (dc_o_cal (dc_run i n) = true \/ dc_o_ce (dc_run i n) = true).
(** ... and this is what the command written at [c] asks for. *)
Definition carries (c u : nat) : Prop :=
  acts u /\ dc_o_cal (dc_run i u) = dci_cal (i c) /\ dc_o_inc (dc_run i u) = dci_inc (i c) /\
  dc_o_ce (dc_run i u) = dci_inc (i c) || dci_dec (i c).
(** The latest command before [n]. *)
Definition latest (c n : nat) : Prop := written c /\ c < n /\ forall t, c < t < n -> ~ written t.
(** The delay line has executed the command [c]: told once, at [u], and [v] is the first edge after it at which
    it is not busy. *)
Definition executed (c u v n : nat) : Prop :=
  carries c u /\ c < u < v /\ v < n /\ (forall t, c <= t < n -> acts t -> t = u) /\
  dci_pix (i v) = true /\ dci_busy (i v) = false /\
  (forall t, u < t < v -> dci_pix (i t) = true -> dci_busy (i t) = true).

Definition arun (n : nat) : abs := at_ abs_step abs0 i n.
Lemma written_write : forall n, written n <-> dci_write (i n) = true.
Proof. intros n. unfold written, dci_write. rewrite andb_true_iff, !orb_true_iff. tauto. Qed.
Lemma emb_status : forall q, dc_status (emb q) = match a_ph q with Idle => false | _ => true end.
Proof. intros [[] ? ? ? ? ? ? ?]; reflexivity. Qed.
Lemma emb_cal : forall q, dc_o_cal (emb q) = match a_ph q with Go2 => a_c q | _ => false end.
Proof. intros [[] [] ? ? [] ? ? ?]; reflexivity. Qed.
Lemma emb_inc : forall q, dc_o_inc (emb q) = match a_ph q with Go2 => a_i q | _ => false end.
Proof. intros [[] ? [] ? ? [] ? ?]; reflexivity. Qed.
Lemma emb_ce : forall q, dc_o_ce (emb q) = match a_ph q with Go2 => a_i q || a_d q | _ => false end.
Proof. intros [[] ? [] [] ? [] [] ?]; reflexivity. Qed.

Hypothesis W : waits.
Lemma arun_sim : forall n, dc_run i n = emb (arun n) /\ abs_ok (arun n) = true.
Proof.
  induction n as [|n [I J]]; [split; reflexivity|].
  unfold dc_run, arun. cbn [at_]. fold (dc_run i n) (arun n). rewrite I. apply abs_sim; [exact J|].
  intros D. apply written_write, W in D. unfold busy_bit in D. rewrite I, emb_status in D.
  destruct (a_ph (arun n)); congruence.
Qed.
Lemma arun_S : forall n, arun (S n) = abs_step (arun n) (i n).
Proof. reflexivity. Qed.
Lemma acts_ph : forall n, acts n <-> dci_pix (i n) = true /\ a_ph (arun n) = Go2.
Proof.
  intros n. unfold acts. destruct (arun_sim n) as [-> K]. rewrite emb_cal, emb_ce. unfold abs_ok in K.
  split; intros [P Q]; (split; [exact P|]); destruct (a_ph (arun n)); try reflexivity; try discriminate Q;
    try (destruct Q; discriminate).
  apply orb_prop in K as [K|K]; [|right; rewrite K; apply orb_true_r].
  apply orb_prop in K as [K|K]; [left; exact K|right; rewrite K; reflexivity].
Qed.
Lemma written_ph : forall n, written n -> a_ph (arun n) = Idle.
Proof.
  intros n D. apply W in D. unfold busy_bit in D. destruct (arun_sim n) as [K _]. rewrite K, emb_status in D.
  destruct (a_ph (arun n)); congruence.
Qed.

Definition bits_of (q : abs) (c : nat) : Prop := a_c q = dci_cal (i c) /\ a_i q = dci_inc (i c) /\ a_d q = dci_dec (i c).
Definition hist (n : nat) : Prop :=
  match a_ph (arun n) with
  | Idle => forall c, latest c n -> exists u v, executed c u v n
  | Go0 | Go1 | Go2 => exists c, latest c n /\ bits_of (arun n) c /\ forall t, c <= t < n -> ~ acts t
  | Work => exists c u, latest c n /\ carries c u /\ c < u < n /\ (forall t, c <= t < n -> acts t -> t = u) /\
              (forall t, u < t < n -> dci_pix (i t) = true -> dci_busy (i t) = true)
  | _ => exists c u v, latest c n /\ executed c u v n
  end.
Lemma latest_S : forall c n, latest c n -> ~ written n -> latest c (S n).
Proof.
  intros c n (A & B & C) N. split; [exact A|]. split; [lia|]. intros t T.
  destruct (Nat.eq_dec t n) as [->|Q]; [exact N|apply C; lia].
Qed.
Lemma latest_now : forall n, written n -> latest n (S n).
Proof. intros n H. split; [exact H|]. split; [lia|]. intros; lia. Qed.
Lemma latest_back : forall c n, latest c (S n) -> ~ written n -> latest c n.
Proof.
  intros c n (A & B & C) N. split; [exact A|]. split; [|intros; apply C; lia].
  destruct (Nat.eq_dec c n) as [->|Q]; [contradiction|lia].
Qed.
Lemma latest_fun : forall c d n, latest c n -> latest d n -> c = d.
Proof.
  intros c d n (A & B & C) (A' & B' & C'). destruct (Nat.lt_trichotomy c d) as [Q|[Q|Q]]; [|exact Q|]; exfalso.
  - apply (C d); [lia|exact A'].
  - apply (C' c); [lia|exact A].
Qed.
Lemma executed_S : forall c u v n, executed c u v n -> ~ acts n -> executed c u v (S n).
Proof.
  intros c u v n (A & B & C & D & E & F & G) N. split; [exact A|]. split; [exact B|]. split; [lia|].
  split; [|auto]. intros t T K. destruct (Nat.eq_dec t n) as [->|Q]; [contradiction|]. apply D; [lia|exact K].
Qed.

Lemma hist_all : forall n, hist n.
Proof.
  induction n as [|n IH].
  - unfold hist. cbn. intros c (_ & L & _). lia.
  - unfold hist in *. rewrite arun_S. unfold abs_step.
    assert (NA : a_ph (arun n) <> Go2 -> ~ acts n) by (intros Q K; apply acts_ph in K; tauto).
    assert (NW : a_ph (arun n) <> Idle -> ~ written n) by (intros Q K; apply written_ph in K; tauto).
    assert (GO : forall q c, latest c n -> bits_of q c -> (forall t, c <= t < n -> ~ acts t) ->
       a_ph (arun n) <> Idle -> ~ acts n -> latest c (S n) /\ bits_of q c /\ forall t, c <= t < S n -> ~ acts t).
    { intros q c L B N NI Nn. split; [apply latest_S; auto|]. split; [exact B|].
      intros t T. destruct (Nat.eq_dec t n) as [->|Q]; [exact Nn|apply N; lia]. }
    destruct (a_ph (arun n)) eqn:P; cbn beta iota in IH.
    + (* Idle *) destruct (dci_write (i n)) eqn:D.
      * cbn [a_ph]. exists n. split; [apply latest_now, written_write, D|].
        split; [split; [reflexivity|split; reflexivity]|].
        intros t T. assert (t = n) as -> by lia. apply NA. discriminate.
      * rewrite P. intros c L. assert (N : ~ written n) by (intros Q; apply written_write in Q; congruence).
        destruct (IH c (latest_back _ _ L N)) as (u & v & X). exists u, v. apply executed_S; [exact X|].
        apply NA. discriminate.
    + destruct IH as (c & L & B & N). destruct (dci_pix (i n)); rewrite ?P; cbn [a_ph set_ph];
        exists c; apply GO; auto; try discriminate; apply NA; discriminate.
    + destruct IH as (c & L & B & N). destruct (dci_pix (i n)); rewrite ?P; cbn [a_ph set_ph];
        exists c; apply GO; auto; try discriminate; apply NA; discriminate.
    + destruct IH as (c & L & B & N). destruct (dci_pix (i n)) eqn:X; rewrite ?P; cbn [a_ph set_ph].
      * exists c, n. assert (A : acts n) by (apply acts_ph; auto).
        split; [apply latest_S; [exact L|apply NW; discriminate]|].
        split. { split; [exact A|]. destruct (arun_sim n) as [-> _]. rewrite emb_cal, emb_inc, emb_ce, P.
                 destruct B as (-> & -> & ->). auto. }
        split; [destruct L as (_ & ? & _); lia|]. split; [|intros; lia].
        intros t T Q. destruct (Nat.eq_dec t n) as [E|E]; [exact E|]. exfalso. apply (N t); [lia|exact Q].
      * exists c. apply GO; auto; [discriminate|]. intros [Q _]. congruence.
    + destruct IH as (c & u & L & C & T & O & Bz). specialize (NA ltac:(discriminate)). specialize (NW ltac:(discriminate)).
      destruct (dci_pix (i n)) eqn:X; cbn [andb]; [destruct (dci_busy (i n)) eqn:Y; cbn [negb]|];
        rewrite ?P; cbn [a_ph set_ph].
      * exists c, u. split; [apply latest_S; auto|]. split; [exact C|]. split; [lia|].
        split; intros t Q; [intros K|]; (destruct (Nat.eq_dec t n) as [->|E]; [|first [apply O; [lia|exact K]|apply Bz; lia]]);
          [contradiction|auto].
      * exists c, u, n. split; [apply latest_S; auto|]. split; [exact C|]. split; [lia|]. split; [lia|].
        split. { intros t Q K. destruct (Nat.eq_dec t n) as [->|E]; [contradiction|apply O; [lia|exact K]]. }
        auto.
      * exists c, u. split; [apply latest_S; auto|]. split; [exact C|]. split; [lia|].
        split; intros t Q; [intros K|]; (destruct (Nat.eq_dec t n) as [->|E]; [|first [apply O; [lia|exact K]|apply Bz; lia]]);
          [contradiction|congruence].
    + destruct IH as (c & u & v & L & X). specialize (NA ltac:(discriminate)). specialize (NW ltac:(discriminate)).
      destruct (dci_pix (i n)); rewrite ?P; cbn [a_ph]; exists c, u, v; (split; [apply latest_S|apply executed_S]; auto).
    + destruct IH as (c & u & v & L & X). specialize (NA ltac:(discriminate)). specialize (NW ltac:(discriminate)).
      destruct (dci_sys (i n)); rewrite ?P; cbn [a_ph set_ph]; exists c, u, v; (split; [apply latest_S|apply executed_S]; auto).
    + destruct IH as (c & u & v & L & X). specialize (NA ltac:(discriminate)). specialize (NW ltac:(discriminate)).
      destruct (dci_sys (i n)); rewrite ?P; cbn [a_ph set_ph]; exists c, u, v; (split; [apply latest_S|apply executed_S]; auto).
    + destruct IH as (c & u & v & L & X). specialize (NA ltac:(discriminate)). specialize (NW ltac:(discriminate)).
      destruct (dci_sys (i n)); rewrite ?P; cbn [a_ph set_ph].
      * intros d Ld. apply latest_back in Ld; [|exact NW]. rewrite (latest_fun d c n Ld L).
        exists u, v. apply executed_S; auto.
      * exists c, u, v; (split; [apply latest_S|apply executed_S]; auto).
Qed.

(** Busy bit back to 0: the command has been executed, once. *)
Theorem C74_executed : forall c n, latest c n -> busy_bit n = false -> exists u v, executed c u v n.
Proof.
  intros c n L B. unfold busy_bit in B. destruct (arun_sim n) as [K _]. rewrite K, emb_status in B.
  pose proof (hist_all n) as H. unfold hist in H. destruct (a_ph (arun n)); try discriminate. apply H, L.
Qed.
(** The delay line is never told anything else. *)
Theorem C74_nothing_else : forall u, acts u -> exists c, latest c u /\ carries c u /\ forall t, c <= t < u -> ~ acts t.
Proof.
  intros u A. pose proof A as A'. apply acts_ph in A' as [_ P].
  pose proof (hist_all u) as H. unfold hist in H. rewrite P in H. destruct H as (c & L & B & N).
  exists c. split; [exact L|]. split; [|exact N]. split; [exact A|].
  destruct (arun_sim u) as [-> _]. rewrite emb_cal, emb_inc, emb_ce, P. destruct B as (-> & -> & ->). auto.
Qed.

(** Progress. *)
Lemma until : forall (e : dc_in -> bool) (p p' : phase),
  (forall q x, a_ph q = p -> a_ph (abs_step q x) = if e x then p' else p) ->
  (forall n, exists t, n <= t /\ e (i t) = true) ->
  forall n, a_ph (arun n) = p -> exists m, n < m /\ a_ph (arun m) = p' /\ forall t, n <= t < m -> a_ph (arun t) = p.
Proof.
  intros e p p' St Ev n P. destruct (Ev n) as (t & Ht & Et).
  remember (t - n) as k eqn:Hk. revert n P Ht Hk. induction k as [|k IH]; intros n P Ht Hk.
  - assert (t = n) as -> by lia. exists (S n). split; [lia|]. rewrite arun_S, (St _ _ P), Et. split; [reflexivity|].
    intros s Hs. assert (s = n) as -> by lia. exact P.
  - destruct (e (i n)) eqn:En.
    + exists (S n). split; [lia|]. rewrite arun_S, (St _ _ P), En. split; [reflexivity|].
      intros s Hs. assert (s = n) as -> by lia. exact P.
    + destruct (IH (S n)) as (m & Hm & Pm & Qm); [rewrite arun_S, (St _ _ P), En; reflexivity|lia|lia|].
      exists m. split; [lia|]. split; [exact Pm|]. intros s Hs.
      destruct (Nat.eq_dec s n) as [->|N]; [exact P|apply Qm; lia].
Qed.
(** If both clocks keep running and the delay line keeps becoming ready, the busy bit returns to 0. *)
Theorem C74_returns : (forall n, exists t, n <= t /\ dci_sys (i t) = true) ->
  (forall n, exists t, n <= t /\ dci_pix (i t) = true /\ dci_busy (i t) = false) ->
  forall c, written c -> exists n, latest c n /\ busy_bit n = false.
Proof.
  intros Sy Px c Wc.
  assert (Pb : forall n, exists t, n <= t /\ dci_pix (i t) && negb (dci_busy (i t)) = true).
  { intros n. destruct (Px n) as (t & A & B & C). exists t. rewrite B, C. auto. }
  assert (Pp : forall n, exists t, n <= t /\ dci_pix (i t) = true) by (intros n; destruct (Px n) as (t & A & B & _); eauto).
  assert (G : a_ph (arun (S c)) = Go0).
  { rewrite arun_S. unfold abs_step. rewrite (written_ph c Wc). apply written_write in Wc. rewrite Wc. reflexivity. }
  assert (St : forall p, p <> Idle -> forall n m, (forall t, n <= t < m -> a_ph (arun t) = p) ->
                 forall t, n <= t < m -> ~ written t).
  { intros p Np n m H t T K. apply written_ph in K. rewrite (H t T) in K. contradiction. }
  destruct (until dci_pix Go0 Go1 ltac:(intros q x H; unfold abs_step; rewrite H; destruct (dci_pix x); [reflexivity|exact H]) Pp _ G)
    as (m1 & L1 & G1 & S1).
  destruct (until dci_pix Go1 Go2 ltac:(intros q x H; unfold abs_step; rewrite H; destruct (dci_pix x); [reflexivity|exact H]) Pp _ G1)
    as (m2 & L2 & G2 & S2).
  destruct (until dci_pix Go2 Work ltac:(intros q x H; unfold abs_step; rewrite H; destruct (dci_pix x); [reflexivity|exact H]) Pp _ G2)
    as (m3 & L3 & G3 & S3).
  destruct (until (fun x => dci_pix x && negb (dci_busy x)) Work Fin
     ltac:(intros q x H; unfold abs_step; rewrite H; destruct (dci_pix x && negb (dci_busy x)); [reflexivity|exact H]) Pb _ G3)
    as (m4 & L4 & G4 & S4).
  destruct (until dci_pix Fin Back0 ltac:(intros q x H; unfold abs_step; rewrite H; destruct (dci_pix x); [reflexivity|exact H]) Pp _ G4)
    as (m5 & L5 & G5 & S5).
  destruct (until dci_sys Back0 Back1 ltac:(intros q x H; unfold abs_step; rewrite H; destruct (dci_sys x); [reflexivity|exact H]) Sy _ G5)
    as (m6 & L6 & G6 & S6).
  destruct (until dci_sys Back1 Back2 ltac:(intros q x H; unfold abs_step; rewrite H; destruct (dci_sys x); [reflexivity|exact H]) Sy _ G6)
    as (m7 & L7 & G7 & S7).
  destruct (until dci_sys Back2 Idle ltac:(intros q x H; unfold abs_step; rewrite H; destruct (dci_sys x); [reflexivity|exact H]) Sy _ G7)
    as (m8 & L8 & G8 & S8).
  exists m8. split.
  - split; [exact Wc|]. split; [lia|]. intros t T.
    destruct (Nat.lt_ge_cases t m1); [apply (St Go0 ltac:(discriminate) _ _ S1); lia|].
    destruct (Nat.lt_ge_cases t m2); [apply (St Go1 ltac:(discriminate) _ _ S2); lia|].
    destruct (Nat.lt_ge_cases t m3); [apply (St Go2 ltac:(discriminate) _ _ S3); lia|].
    destruct (Nat.lt_ge_cases t m4); [apply (St Work ltac:(discriminate) _ _ S4); lia|].
    destruct (Nat.lt_ge_cases t m5); [apply (St Fin ltac:(discriminate) _ _ S5); lia|].
    destruct (Nat.lt_ge_cases t m6); [apply (St Back0 ltac:(discriminate) _ _ S6); lia|].
    destruct (Nat.lt_ge_cases t m7); [apply (St Back1 ltac:(discriminate) _ _ S7); lia|].
    apply (St Back2 ltac:(discriminate) _ _ S8); lia.
  - unfold busy_bit. destruct (arun_sim m8) as [-> _]. rewrite emb_status, G8. reflexivity.
Qed.
End C74.

(** A slow sys clock, a fast pix2x clock, a delay line busy for a while after a command. *)
Definition c74_in (n : nat) : dc_in :=
  {| dci_sys := n mod 3 =? 0; dci_pix := negb (n mod 7 =? 0); dci_cal := n =? 3; dci_inc := n =? 33; dci_dec := false;
     dci_busy := (5 <? n) && (n <? 12) |}.
Example C74_case : waits c74_in /\ latest c74_in 3 30 /\ busy_bit c74_in 30 = false /\ busy_bit c74_in 12 = true /\ busy_bit c74_in 33 = false.
Proof.
  split. { intros n [_ K]. unfold c74_in in K. cbn [dci_cal dci_inc dci_dec] in K.
           destruct K as [K|[K|K]]; [apply Nat.eqb_eq in K; subst; reflexivity|apply Nat.eqb_eq in K; subst; reflexivity|discriminate]. }
  split; [|vm_compute; auto]. split; [split; [reflexivity|left; reflexivity]|]. split; [lia|].
  intros t T [_ K]. unfold c74_in in K. cbn [dci_cal dci_inc dci_dec] in K.
  destruct K as [K|[K|K]]; [apply Nat.eqb_eq in K; lia|apply Nat.eqb_eq in K; lia|discriminate].
Qed.
(** Software that does not wait: the busy bit reads 0 after the second command, although the delay line has
    not been told about it. *)
Definition c74_hasty (n : nat) : dc_in :=
  {| dci_sys := true; dci_pix := true; dci_cal := false; dci_inc := (n =? 0) || (n =? 6); dci_dec := false;
     dci_busy := negb (n =? 4) |}.
Theorem C74_hasty_software : exists i c n, latest i c n /\ busy_bit i n = false /\ forall t, c <= t < n -> ~ acts i t.
Proof.
  exists c74_hasty, 6, 9. split.
  - split; [split; [reflexivity|right; left; reflexivity]|]. split; [lia|].
    intros t T [_ K]. unfold c74_hasty in K. cbn [dci_cal dci_inc dci_dec] in K.
    destruct K as [K|[K|K]]; [discriminate| |discriminate].
    apply orb_prop in K as [K|K]; apply Nat.eqb_eq in K; lia.
  - split; [reflexivity|]. intros t T [_ K].
    assert (C : t = 6 \/ t = 7 \/ t = 8) by lia. destruct C as [->|[->| ->]]; vm_compute in K; destruct K; discriminate.
Qed.
Print Assumptions C74_executed.
Print Assumptions C74_nothing_else.
Print Assumptions C74_returns.
Print Assumptions C74_hasty_software.

(** * C75: overflow flag *)
Lemma between_S : forall e p n, p < n -> between e p (S n) = between e p n + (if e n then 1 else 0).
Proof.
  intros e p n L. unfold between. replace (S n - S p) with (S (n - S p)) by lia. cbn [occurrences].
  replace (S p + (n - S p)) with n by lia. reflexivity.
Qed.
Lemma between_0 : forall e p, between e p (S p) = 0.
Proof. intros. unfold between. rewrite Nat.sub_diag. reflexivity. Qed.
Lemma between_le : forall e p m n, p < m -> m <= n -> between e p m <= between e p n.
Proof.
  intros e p m n A B. unfold between. replace (n - S p) with ((m - S p) + (n - m)) by lia. rewrite occ_app. lia.
Qed.
Lemma between_unique : forall e p x y, p < x -> p < y -> e x = true -> e y = true -> between e p x = between e p y -> x = y.
Proof.
  assert (K : forall e p x y, p < x -> x < y -> e x = true -> between e p x < between e p y).
  { intros e p x y A B C. pose proof (between_S e p x A) as H. rewrite C in H.
    pose proof (between_le e p (S x) y ltac:(lia) ltac:(lia)). lia. }
  intros e p x y A B C D E. destruct (Nat.lt_trichotomy x y) as [Q|[Q|Q]]; [|exact Q|].
  - specialize (K e p x y A Q C). lia.
  - specialize (K e p y x B Q D). lia.
Qed.

Section C75.
(** Any schedule of the two clocks, any dropped words. *)
Variable i : nat -> ov_in.
Definition pix_edge (n : nat) : bool := ovi_pix (i n).
Definition sys_edge (n : nat) : bool := ovi_sys (i n).
(** A word is lost. *)
Definition lost (n : nat) : Prop := ovi_pix (i n) = true /\ ovi_drop (i n) = true.
(** Software clears the flag. *)
Definition clears (n : nat) : Prop := ovi_sys (i n) = true /\ ovi_re (i n) = true.
(** What software reads. *)
Definition flag (n : nat) : bool := ov_read (ov_run i n).
Definition latest_clear (c n : nat) : Prop := clears c /\ c < n /\ forall t, c < t < n -> ~ clears t.
(** After a clear: three edges of the pixel clock, then three of the system clock. *)
Definition settled (c n : nat) : Prop :=
  exists x, c < x < n /\ pix_edge x = true /\ between pix_edge c x = 2 /\ 3 <= between sys_edge x n.
Definition spaced : Prop := forall c n, clears n -> latest_clear c n -> settled c n.

Definition orun (n : nat) : oabs := at_ oabs_step oabs0 i n.
Lemma orun_S : forall n, orun (S n) = oabs_step (orun n) (i n).
Proof. reflexivity. Qed.
Lemma clears_b : forall n, clears n <-> ovi_sys (i n) && ovi_re (i n) = true.
Proof. intros n. unfold clears. rewrite andb_true_iff. tauto. Qed.
Definition where_ (n : nat) : Prop :=
  match o_ph (orun n) with
  | OIdle => True
  | R0 => exists c, latest_clear c n /\ between pix_edge c n = 0
  | R1 => exists c, latest_clear c n /\ between pix_edge c n = 1
  | R2 => exists c, latest_clear c n /\ between pix_edge c n = 2
  | p => exists c x, latest_clear c n /\ c < x < n /\ pix_edge x = true /\ between pix_edge c x = 2 /\
           between sys_edge x n = apos p
  end.
Lemma lclear_S : forall c n, latest_clear c n -> ~ clears n -> latest_clear c (S n).
Proof.
  intros c n (A & B & C) N. split; [exact A|]. split; [lia|]. intros t T.
  destruct (Nat.eq_dec t n) as [->|Q]; [exact N|apply C; lia].
Qed.
Lemma lclear_fun : forall c d n, latest_clear c n -> latest_clear d n -> c = d.
Proof.
  intros c d n (A & B & C) (A' & B' & C'). destruct (Nat.lt_trichotomy c d) as [Q|[Q|Q]]; [|exact Q|]; exfalso.
  - apply (C d); [lia|exact A'].
  - apply (C' c); [lia|exact A].
Qed.

Hypothesis Sp : spaced.
Lemma clear_idle : forall n, where_ n -> clears n -> o_ph (orun n) = OIdle.
Proof.
  intros n H C. unfold where_ in H.
  assert (R : forall k c, latest_clear c n -> between pix_edge c n = k -> k < 3 -> False).
  { intros k c L B K. destruct (Sp c n C L) as (x & X & P & Bx & _).
    pose proof (between_S pix_edge c x ltac:(lia)) as E. rewrite P, Bx in E.
    pose proof (between_le pix_edge c (S x) n ltac:(lia) ltac:(lia)). lia. }
  assert (A : forall k c x, latest_clear c n -> c < x < n -> pix_edge x = true -> between pix_edge c x = 2 ->
                between sys_edge x n = k -> k < 3 -> False).
  { intros k c x L X P B S' K. destruct (Sp c n C L) as (y & Y & Py & By & Sy).
    assert (x = y) as -> by (apply (between_unique pix_edge c); auto; lia). lia. }
  destruct (o_ph (orun n)) eqn:P; [reflexivity|exfalso..].
  - destruct H as (c & L & B). apply (R _ c L B). lia.
  - destruct H as (c & L & B). apply (R _ c L B). lia.
  - destruct H as (c & L & B). apply (R _ c L B). lia.
  - destruct H as (c & x & L & X & Px & B & S'). apply (A _ c x L X Px B S'). cbn; lia.
  - destruct H as (c & x & L & X & Px & B & S'). apply (A _ c x L X Px B S'). cbn; lia.
  - destruct H as (c & x & L & X & Px & B & S'). apply (A _ c x L X Px B S'). cbn; lia.
Qed.
Lemma where_all : forall n, ov_run i n = oemb (orun n) /\ where_ n.
Proof.
  induction n as [|n [I J]]; [split; [reflexivity|exact Logic.I]|].
  pose proof (clear_idle n J) as K. split.
  - unfold ov_run, orun. cbn [at_]. fold (ov_run i n) (orun n). rewrite I. apply oabs_sim.
    intros H. apply K, clears_b, H.
  - assert (NC : o_ph (orun n) <> OIdle -> ~ clears n) by (intros Q C; apply Q, K, C).
    unfold where_ in *. rewrite orun_S. unfold oabs_step; cbn [o_ph]. unfold oph_step.
    destruct (o_ph (orun n)) eqn:P.
    + destruct (ovi_sys (i n) && ovi_re (i n)) eqn:C; [|exact Logic.I]. exists n.
      split; [|apply between_0]. split; [apply clears_b, C|]. split; [lia|]. intros; lia.
    + specialize (NC ltac:(discriminate)). destruct J as (c & L & B). pose proof L as (_ & Lc & _).
      change (ovi_pix (i n)) with (pix_edge n). pose proof (between_S pix_edge c n Lc) as E.
      destruct (pix_edge n); exists c; (split; [apply lclear_S; auto|lia]).
    + specialize (NC ltac:(discriminate)). destruct J as (c & L & B). pose proof L as (_ & Lc & _).
      change (ovi_pix (i n)) with (pix_edge n). pose proof (between_S pix_edge c n Lc) as E.
      destruct (pix_edge n); exists c; (split; [apply lclear_S; auto|lia]).
    + specialize (NC ltac:(discriminate)). destruct J as (c & L & B). pose proof L as (_ & Lc & _).
      change (ovi_pix (i n)) with (pix_edge n). pose proof (between_S pix_edge c n Lc) as E.
      destruct (pix_edge n) eqn:Px.
      * exists c, n. split; [apply lclear_S; auto|]. split; [lia|]. split; [exact Px|]. split; [exact B|]. apply between_0.
      * exists c; (split; [apply lclear_S; auto|lia]).
    + specialize (NC ltac:(discriminate)). destruct J as (c & x & L & X & Px & B & S').
      change (ovi_sys (i n)) with (sys_edge n). pose proof (between_S sys_edge x n ltac:(lia)) as E. cbn [apos] in S'.
      destruct (sys_edge n); exists c, x; (split; [apply lclear_S; auto|]); (split; [lia|]); cbn [apos]; (split; [exact Px|]);
        (split; [exact B|]); lia.
    + specialize (NC ltac:(discriminate)). destruct J as (c & x & L & X & Px & B & S').
      change (ovi_sys (i n)) with (sys_edge n). pose proof (between_S sys_edge x n ltac:(lia)) as E. cbn [apos] in S'.
      destruct (sys_edge n); exists c, x; (split; [apply lclear_S; auto|]); (split; [lia|]); cbn [apos]; (split; [exact Px|]);
        (split; [exact B|]); lia.
    + specialize (NC ltac:(discriminate)). destruct J as (c & x & L & X & Px & B & S').
      change (ovi_sys (i n)) with (sys_edge n). pose proof (between_S sys_edge x n ltac:(lia)) as E. cbn [apos] in S'.
      destruct (sys_edge n); [exact Logic.I|]. exists c, x; (split; [apply lclear_S; auto|]); (split; [lia|]); cbn [apos]; (split; [exact Px|]);
        (split; [exact B|]); lia.
Qed.
Lemma flag_eq : forall n, flag n = o_m1 (orun n) && match o_ph (orun n) with OIdle => true | _ => false end.
Proof.
  intros n. unfold flag. destruct (where_all n) as [-> _]. unfold ov_read, oemb; cbn [ov_m1 ov_mask].
  destruct (o_ph (orun n)); reflexivity.
Qed.

(** A word lost since the last clear. *)
Definition fresh (n : nat) : Prop := exists d, d < n /\ lost d /\ forall c, clears c -> c < n -> c < d.
Lemma fresh_S : forall n, fresh n -> ~ clears n -> fresh (S n).
Proof.
  intros n (d & D & L & C) N. exists d. split; [lia|]. split; [exact L|]. intros c Hc Hn.
  destruct (Nat.eq_dec c n) as [->|Q]; [contradiction|apply C; [exact Hc|lia]].
Qed.
Lemma fresh_now : forall n, lost n -> ~ clears n -> fresh (S n).
Proof.
  intros n L N. exists n. split; [lia|]. split; [exact L|]. intros c Hc Hn.
  destruct (Nat.eq_dec c n) as [->|Q]; [contradiction|lia].
Qed.
Lemma pix_S : forall n, ~ clears n -> (o_ph (orun n) = R2 -> pix_edge n = true) ->
  (o_ph (orun n) <> R2 -> o_pix (orun n) = true -> fresh n) -> o_pix (orun (S n)) = true -> fresh (S n).
Proof.
  intros n N E F H. rewrite orun_S in H. unfold oabs_step in H; cbn [o_pix] in H. unfold pix_edge in E.
  destruct (ovi_pix (i n)) eqn:P.
  - destruct (ovi_drop (i n)) eqn:D; [apply fresh_now; [split; assumption|exact N]|].
    apply fresh_S; [|exact N]. destruct (o_ph (orun n)); try discriminate H; apply F; auto; discriminate.
  - apply fresh_S; [|exact N]. apply F; [|exact H]. intros Q. specialize (E Q). discriminate.
Qed.
Lemma m0_S : forall n, ~ clears n -> (o_pix (orun n) = true -> fresh n) ->
  (sys_edge n = false -> o_m0 (orun n) = true -> fresh n) -> o_m0 (orun (S n)) = true -> fresh (S n).
Proof.
  intros n N F G H. rewrite orun_S in H. unfold oabs_step in H; cbn [o_m0] in H. unfold sys_edge in G.
  apply fresh_S; [|exact N]. destruct (ovi_sys (i n)); auto.
Qed.
Lemma m1_S : forall n, ~ clears n -> (o_m0 (orun n) = true -> fresh n) ->
  (sys_edge n = false -> o_m1 (orun n) = true -> fresh n) -> o_m1 (orun (S n)) = true -> fresh (S n).
Proof.
  intros n N F G H. rewrite orun_S in H. unfold oabs_step in H; cbn [o_m1] in H. unfold sys_edge in G.
  apply fresh_S; [|exact N]. destruct (ovi_sys (i n)); auto.
Qed.
Lemma sound_inv : forall n, match o_ph (orun n) with
  | OIdle | A2 => (o_pix (orun n) = true -> fresh n) /\ (o_m0 (orun n) = true -> fresh n) /\ (o_m1 (orun n) = true -> fresh n)
  | A1 => (o_pix (orun n) = true -> fresh n) /\ (o_m0 (orun n) = true -> fresh n)
  | A0 => o_pix (orun n) = true -> fresh n
  | _ => True end.
Proof.
  induction n as [|n IH]; [cbn; repeat split; discriminate|].
  destruct (where_all n) as [_ Wn]. pose proof (clear_idle n Wn) as CI.
  assert (NC : o_ph (orun n) <> OIdle -> ~ clears n) by (intros Q C; apply Q, CI, C).
  pose proof (pix_S n) as HP. pose proof (m0_S n) as H0. pose proof (m1_S n) as H1.
  replace (o_ph (orun (S n))) with (oph_step (o_ph (orun n)) (i n)) by reflexivity.
  unfold oph_step. change (ovi_sys (i n)) with (sys_edge n) in *. change (ovi_pix (i n)) with (pix_edge n) in *.
  destruct (o_ph (orun n)) eqn:P.
  - destruct (sys_edge n && ovi_re (i n)) eqn:C; [exact Logic.I|].
    assert (N : ~ clears n) by (intros Q; apply clears_b in Q; unfold sys_edge in C; congruence).
    destruct IH as (F & F0 & F1).
    split; [apply HP; auto; discriminate|]. split; [apply H0; auto|apply H1; auto].
  - destruct (pix_edge n); exact Logic.I.
  - destruct (pix_edge n); exact Logic.I.
  - destruct (pix_edge n) eqn:E; [|exact Logic.I]. apply HP; auto; [apply NC; discriminate|intros Q; congruence].
  - specialize (NC ltac:(discriminate)). assert (HP' := HP NC ltac:(discriminate) (fun _ => IH)).
    destruct (sys_edge n) eqn:E; [split; [exact HP'|apply H0; auto; discriminate]|exact HP'].
  - specialize (NC ltac:(discriminate)). destruct IH as (F & F0). assert (HP' := HP NC ltac:(discriminate) (fun _ => F)).
    destruct (sys_edge n) eqn:E; [split; [exact HP'|split; [apply H0; auto|apply H1; auto; discriminate]]|].
    split; [exact HP'|apply H0; auto].
  - specialize (NC ltac:(discriminate)). destruct IH as (F & F0 & F1). assert (HP' := HP NC ltac:(discriminate) (fun _ => F)).
    destruct (sys_edge n) eqn:E; (split; [exact HP'|split; [apply H0; auto|apply H1; auto]]).
Qed.

(** A flag that reads 1 is never stale. *)
Theorem C75_not_stale_partial : forall n, flag n = true -> exists d, d < n /\ lost d /\ forall c, clears c -> c < n -> c < d.
Proof.
  intros n H. rewrite flag_eq in H. apply andb_prop in H as [M P].
  pose proof (sound_inv n) as S'. destruct (o_ph (orun n)); try discriminate. apply S', M.
Qed.

(** Loss after the clear has reached the pixel domain. *)
Theorem C75_reported_partial : forall d n, lost d -> (forall c, clears c -> c < d -> 2 <= between pix_edge c d) ->
  (forall c, d <= c < n -> ~ clears c) -> d < n -> 3 <= between sys_edge d n -> flag n = true.
Proof.
  intros d n Ld Cd Nc Hn Hs.
  assert (K : o_pix (orun n) = true /\ (match o_ph (orun n) with R0 | R1 | R2 => False | _ => True end) /\
     (1 <= between sys_edge d n -> o_m0 (orun n) = true /\ o_ph (orun n) <> A0) /\
     (2 <= between sys_edge d n -> o_m1 (orun n) = true /\ o_ph (orun n) <> A1) /\
     (3 <= between sys_edge d n -> o_ph (orun n) = OIdle)).
  { clear Hs. induction n as [|n IH]; [lia|]. destruct (Nat.eq_dec n d) as [->|Q].
    - rewrite between_0. destruct Ld as [Px Dr]. split; [rewrite orun_S; unfold oabs_step; cbn [o_pix]; rewrite Px, Dr; reflexivity|].
      split; [|repeat split; lia].
      rewrite orun_S. unfold oabs_step; cbn [o_ph]. unfold oph_step. destruct (where_all d) as [_ Wd]. unfold where_ in Wd.
      assert (Nd : ovi_sys (i d) && ovi_re (i d) = false).
      { destruct (ovi_sys (i d) && ovi_re (i d)) eqn:E; [|reflexivity]. exfalso. apply (Nc d); [lia|]. apply clears_b, E. }
      destruct (o_ph (orun d)); rewrite ?Nd, ?Px; try exact Logic.I; try (destruct (ovi_sys (i d)); exact Logic.I).
      + destruct Wd as (c & L & B). pose proof (Cd c (proj1 L) (proj1 (proj2 L))). lia.
      + destruct Wd as (c & L & B). pose proof (Cd c (proj1 L) (proj1 (proj2 L))). lia.
    - destruct IH as (I1 & I2 & I3 & I4 & I5); [intros; apply Nc; lia|lia|].
      assert (Nn : ovi_sys (i n) && ovi_re (i n) = false).
      { destruct (ovi_sys (i n) && ovi_re (i n)) eqn:E; [|reflexivity]. exfalso. apply (Nc n); [lia|]. apply clears_b, E. }
      rewrite (between_S sys_edge d n) by lia. rewrite orun_S. unfold oabs_step; cbn [o_ph o_pix o_m0 o_m1].
      rewrite I1. unfold oph_step, sys_edge at 2 4 6.
      split. { destruct (ovi_pix (i n)); [|reflexivity]. destruct (ovi_drop (i n)); [reflexivity|].
               destruct (o_ph (orun n)); try reflexivity. contradiction. }
      destruct (o_ph (orun n)); try contradiction; rewrite ?Nn; destruct (ovi_sys (i n));
        (split; [exact Logic.I|]);
        (split; [intros; split; [try reflexivity; apply I3; lia|try discriminate; try (apply I3; lia)]|]);
        (split; [intros; split; [first [apply I3; lia|apply I4; lia]|try discriminate; try (apply I4; lia); try (intros _; apply (proj2 (I3 ltac:(lia))); reflexivity)]|]);
        intros; try reflexivity; try (apply I5; lia); exfalso;
        first [apply (proj2 (I4 ltac:(lia))); reflexivity|apply (proj2 (I3 ltac:(lia))); reflexivity|specialize (I5 ltac:(lia)); discriminate]. }
  destruct K as (_ & _ & _ & K4 & K5). rewrite flag_eq. rewrite (proj1 (K4 ltac:(lia))), (K5 Hs). reflexivity.
Qed.
End C75.

(** The conditions are met: losses, a clear, a loss at another clock ratio. *)
Definition c75_in (n : nat) : ov_in :=
  {| ovi_sys := negb (n mod 3 =? 1); ovi_pix := n mod 2 =? 0; ovi_re := (n =? 12) || (n =? 50);
     ovi_drop := (n =? 2) || (n =? 30) |}.
Example C75_case : spaced c75_in /\ lost c75_in 30 /\ 2 <= between (pix_edge c75_in) 12 30 /\
  3 <= between (sys_edge c75_in) 30 40 /\ flag c75_in 12 = true /\ flag c75_in 20 = false /\ flag c75_in 40 = true.
Proof.
  split; [|vm_compute; repeat split; auto; lia].
  intros c n [_ C] ([_ D] & L & _). unfold c75_in in C, D. cbn [ovi_re] in C, D.
  apply orb_prop in C. apply orb_prop in D. rewrite !Nat.eqb_eq in C, D.
  assert (c = 12 /\ n = 50) as [-> ->] by lia. exists 18. vm_compute. repeat split; lia.
Qed.

Lemma ov_stuck : forall i N, (forall n, N <= n -> ov_step (ov_run i N) (i n) = ov_run i N) ->
  forall n, N <= n -> ov_run i n = ov_run i N.
Proof.
  intros i N H n Hn. induction n as [|n IH]; [assert (N = 0) as -> by lia; reflexivity|].
  destruct (Nat.eq_dec N (S n)) as [->|Q]; [reflexivity|].
  unfold ov_run at 1. cbn [at_]. fold (ov_run i n). rewrite IH by lia. apply H. lia.
Qed.
(** Every loss after the last clear is reported: false, in the clocks until the clear reaches the pixel domain
    a loss is cleared with it. *)
Definition c75_window (n : nat) : ov_in :=
  {| ovi_sys := true; ovi_pix := true; ovi_re := n =? 0; ovi_drop := n =? 2 |}.
Theorem C75_reported_refuted : exists i c d, (forall n, ovi_sys (i n) = true /\ ovi_pix (i n) = true) /\
  (forall n, clears i n -> n = c) /\ clears i c /\ c < d /\ lost i d /\ forall n, flag i n = false.
Proof.
  exists c75_window, 0, 2. split; [intros; split; reflexivity|].
  split; [intros n [_ H]; apply Nat.eqb_eq in H; exact H|].
  split; [split; reflexivity|]. split; [lia|]. split; [split; reflexivity|].
  intros n. destruct (Nat.lt_ge_cases n 12) as [L|L].
  - do 12 (destruct n as [|n]; [reflexivity|]). lia.
  - unfold flag. rewrite (ov_stuck c75_window 12); [reflexivity| |exact L].
    intros m Hm. unfold c75_window at 2. rewrite (proj2 (Nat.eqb_neq m 0)), (proj2 (Nat.eqb_neq m 2)) by lia.
    vm_compute. reflexivity.
Qed.
(** Two clears while the pixel clock is stopped: no loss is ever reported again. *)
Definition c75_twice (n : nat) : ov_in :=
  {| ovi_sys := true; ovi_pix := 4 <=? n; ovi_re := (n =? 0) || (n =? 2); ovi_drop := 20 <=? n |}.
Theorem C75_two_clears_refuted : exists i d, (forall n, ovi_sys (i n) = true) /\ (forall n, 4 <= n -> ovi_pix (i n) = true) /\
  (forall n, clears i n -> n < 4) /\ 20 <= d /\ (forall n, d <= n -> lost i n) /\ forall n, flag i n = false.
Proof.
  exists c75_twice, 20. split; [reflexivity|]. split; [intros n H; apply Nat.leb_le, H|].
  split. { intros n [_ H]. unfold c75_twice in H; cbn [ovi_re] in H. apply orb_prop in H. rewrite !Nat.eqb_eq in H. lia. }
  split; [lia|]. split. { intros n H. split; apply Nat.leb_le; lia. }
  intros n. destruct (Nat.lt_ge_cases n 24) as [L|L].
  - do 24 (destruct n as [|n]; [reflexivity|]). lia.
  - unfold flag. rewrite (ov_stuck c75_twice 24); [reflexivity| |exact L].
    intros m Hm. unfold c75_twice at 2. rewrite (proj2 (Nat.eqb_neq m 0)), (proj2 (Nat.eqb_neq m 2)) by lia.
    rewrite (proj2 (Nat.leb_le 4 m)), (proj2 (Nat.leb_le 20 m)) by lia. vm_compute. reflexivity.
Qed.
(** A second clear before the first is through: the flag shows the loss that the second clear was meant to clear. *)
Definition c75_stale (n : nat) : ov_in :=
  {| ovi_sys := true; ovi_pix := true; ovi_re := (n =? 0) || (n =? 5); ovi_drop := n =? 3 |}.
Theorem C75_not_stale_refuted : exists i c n, clears i c /\ c < n /\ (forall d, lost i d -> d < c) /\ flag i n = true.
Proof.
  exists c75_stale, 5, 7. split; [split; reflexivity|]. split; [lia|]. split; [|reflexivity].
  intros d [_ H]. apply Nat.eqb_eq in H. lia.
Qed.
Print Assumptions C75_not_stale_partial.
Print Assumptions C75_reported_partial.
Print Assumptions C75_reported_refuted.
Print Assumptions C75_two_clears_refuted.
Print Assumptions C75_not_stale_refuted.
