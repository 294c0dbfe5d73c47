(** Final theorems about the word error rate counter: C09, C10. *)
From Coq Require Import ZArith List Bool Lia Arith.
From Verif Require Import Hdl TmdsModel TmdsSpec TmdsProofs CharSyncProofs WerModel WerSpec WerProofs.
Import ListNotations.
Open Scope Z_scope.

Theorem C09_legal_words_no_error :
  forall (pb : Z) (x : nat -> Z), (forall n, legal_word (x n)) ->
  forall n, w_cnt (wer_at pb x n) = 0 /\ w_pub (wer_at pb x n) = 0.
Proof. intros pb x H n. apply wer_zero; [exact H|intros; apply legal_range, H]. Qed.
Print Assumptions C09_legal_words_no_error.

Example ex_legal : legal_word 852 /\ legal_word (of_bits (fst (dvi_pixel 16 0))).
Proof. split; [left; exists 0; split; [lia|reflexivity]|right; exists 16, 0; split; [lia|reflexivity]]. Qed.

(** C10, the part that holds: the value published for period [m] is the exact
    number of erroneous words among all the words of the period but one.
    With P = 2^period_bits, the words of period m are those with index in
    [P*m-3, P*(m+1)-3); the first of them (index P*m-3) is missing. *)
Theorem C10_published_count_partial :
  forall pb : nat, (2 <= pb)%nat ->
  forall x : nat -> Z, (forall n, 0 <= x n < 1024) ->
  let P := (2 ^ pb)%nat in
  (forall n : nat, (n <= P)%nat -> w_pub (wer_at (Z.of_nat pb) x n) = 0) /\
  forall m n : nat, (P * (m + 1) < n <= P * (m + 2))%nat ->
  w_pub (wer_at (Z.of_nat pb) x n) = errors_between x (P * m - 2) (P * (m + 1) - 3).
Proof.
  intros pb Hpb x Hx P. split.
  - intros n Hn. apply wer_published_0; assumption.
  - intros m n Hn. apply (wer_published pb Hpb x Hx m n Hn).
Qed.
Print Assumptions C10_published_count_partial.

Example ex_count :
  w_pub (wer_at 3 (fun n => if Nat.eqb (n mod 3) 0 then 170 else 852) 17) = 3 /\
  errors_between (fun n => if Nat.eqb (n mod 3) 0 then 170 else 852) (8 - 2) (16 - 3) = 3.
Proof. vm_compute. split; reflexivity. Qed.

(** The full claim (every word of the period is counted) is false for every
    period length: an erroneous word that reaches the counter in the clock
    that publishes the previous period is never reported. *)
Theorem C10_published_count_refuted :
  forall pb : nat, (2 <= pb)%nat ->
  exists x : nat -> Z, (forall n, 0 <= x n < 1024) /\
    word_error (x (2 ^ pb - 3)%nat) = true /\
    forall n, w_pub (wer_at (Z.of_nat pb) x n) = 0.
Proof.
  intros pb Hpb. pose proof (P_pos pb Hpb) as HP.
  exists (fun n => if Nat.eqb n (2 ^ pb - 3) then 170 else 0).
  assert (R : forall n, 0 <= (if Nat.eqb n (2 ^ pb - 3) then 170 else 0) < 1024)
    by (intros n; destruct (Nat.eqb _ _); lia).
  split; [exact R|]. split; [rewrite Nat.eqb_refl; reflexivity|].
  intros n. destruct (le_lt_dec n (2 ^ pb)) as [L|L].
  - apply wer_published_0; assumption.
  - set (P := (2 ^ pb)%nat) in *.
    destruct (C10_published_count_partial pb Hpb _ R) as [_ H]. fold P in H.
    pose proof (Nat.div_mod (n - 1) P ltac:(lia)) as D.
    pose proof (Nat.mod_upper_bound (n - 1) P ltac:(lia)) as U.
    assert (1 <= (n - 1) / P)%nat by (apply Nat.div_le_lower_bound; lia).
    rewrite (H ((n - 1) / P - 1)%nat n).
    + apply errors_none. intros k Hk.
      destruct (Nat.eqb_spec k (P - 3)) as [E|E]; [exfalso|reflexivity].
      destruct ((n - 1) / P - 1)%nat eqn:Q; nia.
    + replace ((n - 1) / P - 1 + 1)%nat with ((n - 1) / P)%nat by lia.
      replace ((n - 1) / P - 1 + 2)%nat with ((n - 1) / P + 1)%nat by lia. nia.
Qed.
Print Assumptions C10_published_count_refuted.
