(** Finite traces of events of a clocked system: used by the specifications. *)
From Coq Require Import List Bool Arith Lia.
Import ListNotations.
Open Scope nat_scope.

(** Events of [f] in the clocks [a, a+1, ..., a+n-1], in order. *)
Fixpoint collect {A : Type} (f : nat -> option A) (a n : nat) : list A :=
  match n with
  | O => []
  | S m => collect f a m ++ (match f (a + m) with Some x => [x] | None => [] end)
  end.

(** Number of clocks in [a, a+n) in which [p] holds. *)
Fixpoint occurrences (p : nat -> bool) (a n : nat) : nat :=
  match n with
  | O => 0
  | S m => occurrences p a m + (if p (a + m) then 1 else 0)
  end.

(** [x] rises / falls in clock [t]: different from the previous clock; before
    clock 0 the value counts as low. *)
Definition rises (x : nat -> bool) (t : nat) : bool :=
  x t && negb (match t with O => false | S k => x k end).
Definition falls (x : nat -> bool) (t : nat) : bool :=
  negb (x t) && (match t with O => false | S k => x k end).

Lemma collect_ext : forall (A : Type) (f g : nat -> option A) a n,
  (forall t, a <= t < a + n -> f t = g t) -> collect f a n = collect g a n.
Proof.
  induction n as [|n IH]; intros H; [reflexivity|]. cbn [collect].
  rewrite IH by (intros; apply H; lia). rewrite H by lia. reflexivity.
Qed.

Lemma collect_length : forall (A : Type) (f : nat -> option A) a n,
  length (collect f a n) = occurrences (fun t => match f t with Some _ => true | None => false end) a n.
Proof.
  induction n as [|n IH]; [reflexivity|]. cbn [collect occurrences]. rewrite app_length, IH.
  destruct (f (a + n)); reflexivity.
Qed.

Lemma collect_app : forall (A : Type) (f : nat -> option A) a n m,
  collect f a (n + m) = collect f a n ++ collect f (a + n) m.
Proof.
  induction m as [|m IH]; [rewrite Nat.add_0_r; cbn; rewrite app_nil_r; reflexivity|].
  rewrite Nat.add_succ_r. cbn [collect]. rewrite IH, <- app_assoc. rewrite Nat.add_assoc. reflexivity.
Qed.

Lemma occurrences_ext : forall p q a n, (forall t, a <= t < a + n -> p t = q t) ->
  occurrences p a n = occurrences q a n.
Proof.
  induction n as [|n IH]; intros H; [reflexivity|]. cbn [occurrences].
  rewrite IH by (intros; apply H; lia). rewrite H by lia. reflexivity.
Qed.
