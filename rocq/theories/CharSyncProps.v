(** Final theorems about character synchronisation: C06, C07, C08, C62. *)
From Coq Require Import ZArith List Bool Lia Arith.
From Verif Require Import Hdl TmdsModel TmdsSpec TmdsProofs CharSyncModel CharSyncSpec CharSyncProofs.
Import ListNotations.
Open Scope Z_scope.

(** C06, for every number [rc] of required control words (8 in the code) and
    every received bit stream. *)
Theorem C06_lock_needs_evidence :
  forall rc, 1 <= rc ->
  forall x : nat -> Z, (forall n, 0 <= x n < 1024) ->
  forall n : nat,
  let s := cs_run rc cs_init x n in
  let s' := cs_run rc cs_init x (S n) in
  (cs_synced s = true -> cs_synced s' = true) /\
  (cs_synced s' <> cs_synced s \/ cs_sel s' <> cs_sel s ->
   rc <= Z.of_nat n /\
   forall j : nat, Z.of_nat j < rc -> control_seen x (n - 1 - j) (cs_sel s')).
Proof. intros rc Hrc x Hx n. exact (lock_evidence rc Hrc x Hx n). Qed.
Print Assumptions C06_lock_needs_evidence.

(** The premise "lock moves" is met: a stream of control words locks. *)
Example ex_lock_moves :
  let x := misaligned (fun _ => 852) 3 in
  cs_synced (cs_run 8 cs_init x 10) = false /\ cs_synced (cs_run 8 cs_init x 11) = true /\
  cs_sel (cs_run 8 cs_init x 10) = 0 /\ cs_sel (cs_run 8 cs_init x 11) = 7.
Proof. vm_compute. repeat split. Qed.

(** C07: acquisition, from every state of the receiver. *)
Theorem C07_lock_acquired :
  forall W : nat -> Z, (forall n, legal_word (W n)) ->
  forall rc, 2 <= rc ->
  forall s : nat, (s < 10)%nat ->
  forall st0, 0 <= cs_cnt st0 <= rc - 1 ->
  forall m : nat, (1 <= m)%nat ->
  (forall j : nat, Z.of_nat j <= rc -> legal_control (W (m + j)%nat)) ->
  forall n : nat, (m + Z.to_nat rc + 3 <= n)%nat ->
  let st := cs_run rc st0 (misaligned W s) n in
  cs_synced st = true /\ cs_sel st = (10 - Z.of_nat s) mod 10.
Proof.
  intros W HW rc Hrc s Hs st0 Hst0 m Hm Hc n Hn. cbv zeta.
  destruct (Nat.eqb_spec s 0) as [E|E].
  - destruct (lock_acquired W HW rc Hrc s Hs st0 Hst0 (S m) ltac:(lia)) as [A B].
    + intros j Hj. destruct (Nat.eqb_spec s 0); [|lia].
      replace (S m + j - 1)%nat with (m + j)%nat by lia. apply Hc, Hj.
    + eapply (lock_stable W HW rc Hrc s Hs st0 (S m + Z.to_nat rc + 2)); try assumption; lia.
  - destruct (lock_acquired W HW rc Hrc s Hs st0 Hst0 m Hm) as [A B].
    + intros j Hj. destruct (Nat.eqb_spec s 0); [lia|]. apply Hc, Hj.
    + eapply (lock_stable W HW rc Hrc s Hs st0 (m + Z.to_nat rc + 2)); try assumption; lia.
Qed.
Print Assumptions C07_lock_acquired.

(** C08: once locked at the true alignment, the lock never moves and the
    output is the transmitted word stream. *)
Theorem C08_lock_stable :
  forall W : nat -> Z, (forall n, legal_word (W n)) ->
  forall rc, 2 <= rc ->
  forall s : nat, (s < 10)%nat ->
  forall st0 (N : nat), (3 <= N)%nat ->
  let st := cs_run rc st0 (misaligned W s) in
  cs_synced (st N) = true -> cs_sel (st N) = (10 - Z.of_nat s) mod 10 ->
  forall n : nat, (N <= n)%nat ->
  cs_synced (st n) = true /\ cs_sel (st n) = (10 - Z.of_nat s) mod 10 /\
  cs_data (st (S n)) = W (if Nat.eqb s 0 then (n - 1)%nat else n).
Proof.
  intros W HW rc Hrc s Hs st0 N HN st H1 H2 n Hn.
  destruct (lock_stable W HW rc Hrc s Hs st0 N HN H1 H2 n Hn) as [A B].
  repeat split; try assumption.
  apply (locked_data W HW rc s Hs st0 n); [lia|exact B].
Qed.
Print Assumptions C08_lock_stable.

(** A concrete legal stream with pixels and blanking: the encoder itself. *)
Definition ex_in (n : nat) : enc_in :=
  {| ei_d := Z.of_nat n * 91 mod 256; ei_c := 1; ei_de := Nat.ltb 12 (n mod 40) |}.

(** The words of an encoder, from the first clock after power-on. *)
Definition tx_words (i : nat -> enc_in) (n : nat) : Z := e_out (enc_at i (S n)).

Lemma tx_words_legal : forall i, (forall n, enc_in_ok (i n)) -> forall n, legal_word (tx_words i n).
Proof.
  intros i Hi n. unfold tx_words.
  destruct n as [|[|[|n]]].
  1,2,3: left; exists 0; split; [lia|reflexivity].
  replace (S (S (S (S n)))) with (n + 4)%nat by lia.
  destruct (enc_out_legal i Hi n) as [H1 H2]. destruct (ei_de (i n)).
  - right; apply H1; reflexivity.
  - left; apply H2; reflexivity.
Qed.

Example ex_in_ok : forall n, enc_in_ok (ex_in n).
Proof. intros n; split; cbn; [apply Z.mod_pos_bound; lia|lia]. Qed.

Example ex_locked :
  let st := cs_run 8 cs_init (misaligned (tx_words ex_in) 3) in
  cs_synced (st 12%nat) = true /\ cs_sel (st 12%nat) = 7 /\ cs_data (st 30%nat) = tx_words ex_in 29.
Proof. vm_compute. repeat split. Qed.

(** C62: a whole channel.  Encoder, serial link with an unknown bit offset,
    character synchroniser in an unknown state, decoder: after [rc]+1 blank
    characters, the receiver outputs exactly the transmitted characters, for
    ever. *)
Theorem C62_channel_end_to_end :
  forall i : nat -> enc_in, (forall n, 0 <= ei_d (i n) < 256 /\ 0 <= ei_c (i n) < 4) ->
  forall rc, 2 <= rc ->
  forall s : nat, (s < 10)%nat ->
  forall st0, 0 <= cs_cnt st0 <= rc - 1 ->
  forall (v : nat -> bool) (a : nat),
  (forall j : nat, Z.of_nat j <= rc -> ei_de (i (a + j)%nat) = false) ->
  forall n : nat, (a + Z.to_nat rc + 6 <= n)%nat ->
  let cs := cs_run rc st0 (misaligned (tx_words i) s) in
  let o := dec_at (fun k => {| di_valid := v k; di_word := cs_data (cs k) |})
                  (n + if Nat.eqb s 0 then 6 else 5) in
  cs_synced (cs n) = true /\
  d_de o = ei_de (i n) /\
  (ei_de (i n) = true -> d_d o = ei_d (i n)) /\
  (ei_de (i n) = false -> d_c o = ei_c (i n)).
Proof.
  intros i Hi rc Hrc s Hs st0 Hst0 v a Ha n Hn cs o.
  assert (HW := tx_words_legal i Hi).
  assert (L : forall t, (a + Z.to_nat rc + 6 <= t)%nat ->
            cs_synced (cs t) = true /\ cs_sel (cs t) = (10 - Z.of_nat s) mod 10).
  { intros t Ht. apply (C07_lock_acquired _ HW rc Hrc s Hs st0 Hst0 (a + 3)); try lia.
    intros j Hj. unfold tx_words. replace (S (a + 3 + j)) with (a + j + 4)%nat by lia.
    apply enc_out_legal; [exact Hi|]. apply Ha, Hj. }
  split; [apply L; lia|].
  assert (D : di_word {| di_valid := v (n + if Nat.eqb s 0 then 5 else 4)%nat;
                         di_word := cs_data (cs (n + if Nat.eqb s 0 then 5 else 4)%nat) |}
              = e_out (enc_at i (n + 4))).
  { cbn [di_word]. destruct (Nat.eqb_spec s 0) as [E|E].
    - replace (n + 5)%nat with (S (n + 4)) by lia.
      destruct (L (n + 4)%nat ltac:(lia)) as [L1 L2].
      destruct (C08_lock_stable _ HW rc Hrc s Hs st0 (n + 4) ltac:(lia) L1 L2 (n + 4) ltac:(lia)) as (_ & _ & R).
      unfold cs. rewrite R. destruct (Nat.eqb_spec s 0); [|lia].
      unfold tx_words. do 2 f_equal. lia.
    - replace (n + 4)%nat with (S (n + 3)) at 1 by lia.
      destruct (L (n + 3)%nat ltac:(lia)) as [L1 L2].
      destruct (C08_lock_stable _ HW rc Hrc s Hs st0 (n + 3) ltac:(lia) L1 L2 (n + 3) ltac:(lia)) as (_ & _ & R).
      unfold cs. rewrite R. destruct (Nat.eqb_spec s 0); [lia|].
      unfold tx_words. do 2 f_equal. lia. }
  assert (Q := loopback i Hi v n).
  cbv zeta in Q. replace (n + 5)%nat with (S (n + 4)) in Q by lia.
  rewrite dec_step_at in Q. unfold dec_step in Q; cbn [d_de d_d d_c di_word] in Q.
  unfold o.
  replace (n + (if Nat.eqb s 0 then 6 else 5))%nat with (S (n + if Nat.eqb s 0 then 5 else 4))
    by (destruct (Nat.eqb s 0); lia).
  rewrite dec_step_at. unfold dec_step; cbn [d_de d_d d_c].
  rewrite D. destruct Q as (Q1 & Q2 & Q3).
  rewrite (dec_ctl_true_indep _ _ (d_c (dec_at (fun k => {| di_valid := v k; di_word := e_out (enc_at i k) |}) (n + 4)))).
  split; [exact Q1|]. split; [exact Q2|].
  intros E. destruct (enc_out_legal i Hi n) as [_ C]. specialize (C E).
  destruct C as (c & Hc & E2). specialize (Q3 E). rewrite E2 in Q3 |- *.
  rewrite dec_ctl_find in *. destruct (proj2 (find_control _) (ex_intro _ c (conj Hc eq_refl))) as (k & F).
  rewrite F in *. exact Q3.
Qed.
Print Assumptions C62_channel_end_to_end.

Example ex_end_to_end_blank : forall j : nat, Z.of_nat j <= 8 -> ei_de (ex_in (40 + j)%nat) = false.
Proof.
  intros j Hj. assert (H : (j <= 8)%nat) by lia.
  do 9 (destruct j as [|j]; [reflexivity|]). lia.
Qed.
