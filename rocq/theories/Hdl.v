(** Common vocabulary: synchronous circuits over all clock cycles, and the
    fixed-width arithmetic of Migen signals.  Nothing here is specific to one
    module of litevideo. *)
From Coq Require Import ZArith List Bool Lia.
Import ListNotations.
Open Scope Z_scope.

(** [at_ step s0 i n]: register contents at the beginning of clock [n], when
    the inputs during clock [k] are [i k].  Models the Migen [sync] domain:
    all registers take their next value, computed from the old ones, at the
    end of each clock. *)
Fixpoint at_ {S I : Type} (step : S -> I -> S) (s0 : S) (i : nat -> I) (n : nat) : S :=
  match n with
  | O => s0
  | Datatypes.S m => step (at_ step s0 i m) (i m)
  end.

(** Value stored by a Migen [Signal(n)] when [x] is assigned to it. *)
Definition trunc (n x : Z) : Z := x mod 2 ^ n.

(** Value stored by a signed Migen [Signal((n, True))] when [x] is assigned. *)
Definition strunc (n x : Z) : Z := (x + 2 ^ (n - 1)) mod 2 ^ n - 2 ^ (n - 1).

(** [s[lo:lo+n]] of a Migen signal, as an unsigned value. *)
Definition slice (lo n x : Z) : Z := (x / 2 ^ lo) mod 2 ^ n.

(** Bit [k] of a Migen signal. *)
Definition bit (x k : Z) : bool := Z.testbit x k.

Definition b2z (b : bool) : Z := if b then 1 else 0.

(** Migen [Cat] of one-bit values, least significant first. *)
Fixpoint of_bits (l : list bool) : Z :=
  match l with
  | [] => 0
  | b :: r => b2z b + 2 * of_bits r
  end.

(** The low [n] bits of [x], least significant first. *)
Definition to_bits (n : nat) (x : Z) : list bool :=
  map (fun k => Z.testbit x (Z.of_nat k)) (seq 0 n).

(** Sum of one-bit values: [reduce(add, ...)]. *)
Fixpoint count_true (l : list bool) : Z :=
  match l with
  | [] => 0
  | b :: r => b2z b + count_true r
  end.

(** migen.fhdl.bitcontainer.bits_for for a non-negative argument. *)
Definition bits_for (x : Z) : Z := if x <=? 0 then 1 else Z.log2 x + 1.

(** The integers [lo, lo+1, ..., lo+n-1]; used to decide finite domains. *)
Definition zrange (lo : Z) (n : nat) : list Z :=
  map (fun k => lo + Z.of_nat k) (seq 0 n).

Lemma in_zrange : forall lo n x, In x (zrange lo n) <-> lo <= x < lo + Z.of_nat n.
Proof.
  intros lo n x; unfold zrange; rewrite in_map_iff; split.
  - intros (k & <- & H); apply in_seq in H; lia.
  - intros H; exists (Z.to_nat (x - lo)); rewrite in_seq; lia.
Qed.

Lemma forallb_zrange : forall lo n (p : Z -> bool),
  forallb p (zrange lo n) = true -> forall x, lo <= x < lo + Z.of_nat n -> p x = true.
Proof.
  intros lo n p H x Hx. rewrite forallb_forall in H. apply H, in_zrange, Hx.
Qed.

Lemma trunc_range : forall n x, 0 <= n -> 0 <= trunc n x < 2 ^ n.
Proof. intros; unfold trunc; apply Z.mod_pos_bound, Z.pow_pos_nonneg; lia. Qed.

Lemma trunc_id : forall n x, 0 <= x < 2 ^ n -> trunc n x = x.
Proof. intros; unfold trunc; apply Z.mod_small; lia. Qed.

Lemma strunc_id : forall n x, - 2 ^ (n - 1) <= x < 2 ^ (n - 1) -> 0 < n -> strunc n x = x.
Proof.
  intros n x H Hn; unfold strunc. rewrite Z.mod_small; [lia|].
  replace (2 ^ n) with (2 * 2 ^ (n - 1)); [lia|].
  rewrite <- Z.pow_succ_r by lia. f_equal; lia.
Qed.

Lemma count_true_nonneg : forall l, 0 <= count_true l <= Z.of_nat (length l).
Proof. induction l as [|b r IH]; [simpl; lia|]; cbn [count_true length]; destruct b; unfold b2z; lia. Qed.

Lemma nth_map_seq : forall (A : Type) (f : nat -> A) n i d, (i < n)%nat ->
  nth i (map f (seq 0 n)) d = f i.
Proof.
  intros A f n i d Hi. rewrite (nth_indep _ d (f 0%nat)) by (rewrite map_length, seq_length; exact Hi).
  rewrite (map_nth f). rewrite seq_nth by exact Hi. reflexivity.
Qed.
