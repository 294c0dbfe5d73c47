(** C61: timing delay lines are pure delays, for every latency. *)
From Coq Require Import List Lia Arith.
From Verif Require Import Hdl DelayModel.
Import ListNotations.
Open Scope nat_scope.

Lemma dly_step_length : forall (A : Type) (s : list A) x, length (dly_step s x) = length s.
Proof. induction s as [|a r IH]; intros x; cbn; [reflexivity|]. rewrite IH. reflexivity. Qed.

Lemma dly_step_nth : forall (A : Type) (s : list A) x k d, S k < length s ->
  nth (S k) (dly_step s x) d = nth k s d.
Proof.
  induction s as [|a r IH]; intros x k d H; cbn in H; [lia|].
  cbn [dly_step nth]. destruct k as [|k].
  - destruct r; cbn in H; [lia|]. reflexivity.
  - rewrite IH by lia. reflexivity.
Qed.

Lemma dly_run_length : forall (A : Type) lat (z : A) i n, length (dly_run lat z i n) = lat.
Proof.
  induction n as [|n IH]; [apply repeat_length|].
  unfold dly_run in *. cbn [at_]. rewrite dly_step_length. exact IH.
Qed.

(** Register [k] holds the input of [k+1] clocks ago. *)
Lemma dly_run_nth : forall (A : Type) lat (z : A) i n k, k < lat ->
  nth k (dly_run lat z i n) z = if k <? n then i (n - 1 - k) else z.
Proof.
  induction n as [|n IH]; intros k Hk.
  - unfold dly_run, dly_init. cbn [at_]. rewrite nth_repeat. reflexivity.
  - unfold dly_run in *. cbn [at_].
    pose proof (dly_run_length A lat z i n) as HL. unfold dly_run in HL.
    destruct k as [|k].
    + cbn [Nat.ltb Nat.leb]. replace (S n - 1 - 0) with n by lia.
      destruct (at_ dly_step (dly_init lat z) i n); cbn in HL; [lia|reflexivity].
    + rewrite dly_step_nth by lia. rewrite IH by lia.
      change (S k <? S n) with (k <? n). destruct (k <? n) eqn:E; [|reflexivity].
      apply Nat.ltb_lt in E. f_equal. lia.
Qed.

Lemma last_nth : forall (A : Type) (s : list A) d, s <> [] -> last s d = nth (length s - 1) s d.
Proof.
  induction s as [|a r IH]; intros d H; [congruence|].
  destruct r as [|b r]; [reflexivity|].
  change (last (a :: b :: r) d) with (last (b :: r) d). rewrite IH by congruence.
  cbn [length]. replace (S (S (length r)) - 1) with (S (S (length r) - 1)) by lia. reflexivity.
Qed.

Theorem C61_pure_delay :
  forall (A : Type) (latency : nat) (z : A) (i : nat -> A) (n : nat),
  dly_out (dly_run latency z i (n + latency)) (i (n + latency)) = i n /\
  (n < latency -> dly_out (dly_run latency z i n) (i n) = z).
Proof.
  intros A lat z i n. unfold dly_out.
  destruct lat as [|lat].
  - split; [|lia]. rewrite Nat.add_0_r.
    pose proof (dly_run_length A 0 z i n) as HL. destruct (dly_run 0 z i n); [reflexivity|discriminate].
  - assert (HN : forall m d, last (dly_run (S lat) z i m) d = nth lat (dly_run (S lat) z i m) z).
    { intros m d. pose proof (dly_run_length A (S lat) z i m) as HL.
      rewrite last_nth by (intro E; rewrite E in HL; discriminate).
      rewrite HL. replace (S lat - 1) with lat by lia. apply nth_indep. lia. }
    split.
    + rewrite HN, dly_run_nth by lia.
      destruct (Nat.ltb_spec lat (n + S lat)); [|lia]. f_equal. lia.
    + intros Hn. rewrite HN, dly_run_nth by lia.
      destruct (Nat.ltb_spec lat n); [lia|reflexivity].
Qed.
Print Assumptions C61_pure_delay.

(** A latency-3 line fed with 10, 11, 12, ... *)
Example ex_delay :
  map (fun n => dly_out (dly_run 3 0 (fun k => 10 + k) n) (10 + n)) (seq 0 7) = [0; 0; 0; 10; 11; 12; 13].
Proof. reflexivity. Qed.
