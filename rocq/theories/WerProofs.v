(** Lemmas about the word error rate counter. *)
From Coq Require Import ZArith List Bool Lia Arith.
From Verif Require Import Hdl TmdsModel TmdsSpec TmdsProofs WerModel WerSpec.
Import ListNotations.
Open Scope Z_scope.

Definition wer_flag (d : Z) : bool :=
  (4 <? wer_transitions d) && negb (existsb (fun t => d =? t) control_tokens).

Lemma wer_flag_all :
  forallb (fun w => Bool.eqb (wer_flag (slice 0 9 w)) (word_error w)) (zrange 0 1024) = true.
Proof. vm_compute. reflexivity. Qed.

Lemma wer_flag_ok : forall w, 0 <= w < 1024 -> wer_flag (slice 0 9 w) = word_error w.
Proof.
  intros w Hw. apply eqb_prop. apply (forallb_zrange _ _ _ wer_flag_all). simpl; lia.
Qed.

Section Wer.
Variable pb : nat.
Hypothesis Hpb : (2 <= pb)%nat.
Variable x : nat -> Z.
Hypothesis Hx : forall n, 0 <= x n < 1024.
Let st := wer_at (Z.of_nat pb) x.
Let P := (2 ^ pb)%nat.

(** Error flag register seen in clock [k]. *)
Definition eflag (k : nat) : bool :=
  match k with S (S (S j)) => word_error (x j) | _ => false end.

Lemma st_S : forall n, st (S n) = wer_step (Z.of_nat pb) (st n) (x n).
Proof. reflexivity. Qed.

Lemma err_flag : forall k, w_err (st k) = eflag k.
Proof.
  intros [|[|[|k]]]; [reflexivity..|].
  rewrite !st_S. unfold wer_step; cbn [w_err w_tc w_ctl w_data eflag].
  apply wer_flag_ok, Hx.
Qed.

Fixpoint cnt_e (a n : nat) : Z :=   (* flags in clocks [a, a+n) *)
  match n with O => 0 | S m => cnt_e a m + b2z (eflag (a + m)) end.

Lemma cnt_e_bound : forall a n, 0 <= cnt_e a n <= Z.of_nat n.
Proof. induction n as [|n IH]; cbn [cnt_e]; [lia|]. destruct (eflag _); unfold b2z; lia. Qed.

Lemma P_pos : (4 <= P)%nat.
Proof.
  unfold P. change 4%nat with (2 ^ 2)%nat. apply Nat.pow_le_mono_r; lia.
Qed.

Lemma P_Z : 2 ^ Z.of_nat pb = Z.of_nat P.
Proof. unfold P. rewrite Nat2Z.inj_pow. reflexivity. Qed.

Lemma carry : forall c, 0 <= c < 2 ^ Z.of_nat pb ->
  bit (c + 1) (Z.of_nat pb) = (c + 1 =? 2 ^ Z.of_nat pb).
Proof.
  intros c Hc. unfold bit. destruct (Z.eqb_spec (c + 1) (2 ^ Z.of_nat pb)) as [E|E].
  - rewrite E. apply Z.pow2_bits_true. lia.
  - rewrite <- (Z.mod_small (c + 1) (2 ^ Z.of_nat pb)) by lia.
    apply Z.mod_pow2_bits_high. lia.
Qed.

Lemma inv : forall n q r, n = (P * q + r)%nat -> (r < P)%nat ->
  w_pc (st (S n)) = Z.of_nat ((S r) mod P) /\
  w_done (st (S n)) = Nat.eqb (S r) P /\
  w_cnt (st (S n)) = cnt_e (P * q + 1) r /\
  w_pub (st (S n)) = match q with O => 0 | S q' => cnt_e (P * q' + 1) (P - 1) end.
Proof.
  pose proof P_pos as HP.
  induction n as [|n IH]; intros q r En Hr.
  - assert (q = 0 /\ r = 0)%nat as [-> ->] by nia.
    rewrite st_S. unfold wer_step; cbn [w_pc w_done w_cnt w_pub st wer_at at_ wer_init w_err cnt_e Z.add].
    rewrite Nat.mod_small by lia.
    assert (E : trunc (Z.of_nat pb) 1 = 1).
    { apply trunc_id. rewrite P_Z. lia. }
    rewrite E.
    split; [reflexivity|]. split; [|split; reflexivity].
    change 1 with (0 + 1) at 1. rewrite carry by (rewrite P_Z; lia). rewrite P_Z.
    destruct (Nat.eqb_spec 1 P); [lia|]. apply Z.eqb_neq. lia.
  - destruct r as [|r].
    + (* previous clock closed period q-1 *)
      destruct q as [|q]; [lia|].
      destruct (IH q (P - 1)%nat ltac:(nia) ltac:(lia)) as (I1 & I2 & I3 & I4).
      rewrite st_S. unfold wer_step; cbn [w_pc w_done w_cnt w_pub].
      replace (S (P - 1)) with P in * by lia.
      rewrite Nat.mod_same in I1 by lia. rewrite Nat.eqb_refl in I2.
      rewrite I1, I2, I3.
      rewrite Nat.mod_small by lia.
      split; [apply trunc_id; rewrite P_Z; lia|].
      split.
      { rewrite carry by (rewrite P_Z; lia). rewrite P_Z.
        destruct (Nat.eqb_spec 1 P); [lia|]. apply Z.eqb_neq. lia. }
      split; reflexivity.
    + destruct (IH q r ltac:(lia) ltac:(lia)) as (I1 & I2 & I3 & I4).
      rewrite st_S. unfold wer_step; cbn [w_pc w_done w_cnt w_pub].
      rewrite Nat.mod_small in I1 by lia.
      destruct (Nat.eqb_spec (S r) P); [lia|].
      rewrite I1, I2, I3, I4.
      split.
      { unfold trunc. rewrite P_Z.
        destruct (Nat.eq_dec (S (S r)) P) as [E|E].
        - rewrite E. rewrite Nat.mod_same by lia.
          replace (Z.of_nat (S r) + 1) with (Z.of_nat P) by lia. rewrite Z.mod_same; lia.
        - rewrite Nat.mod_small by lia. rewrite Z.mod_small; lia. }
      split.
      { rewrite carry by (rewrite P_Z; lia). rewrite P_Z.
        destruct (Nat.eqb_spec (S (S r)) P); [apply Z.eqb_eq|apply Z.eqb_neq]; lia. }
      split; [|reflexivity].
      rewrite err_flag. cbn [cnt_e].
      replace (S n) with (P * q + 1 + r)%nat by lia.
      pose proof (cnt_e_bound (P * q + 1) r).
      destruct (eflag _); unfold b2z; [|lia].
      apply trunc_id. rewrite P_Z. lia.
Qed.

End Wer.

(** Flags counted over clocks are words counted three places earlier. *)
Lemma cnt_e_errors : forall x a n,
  cnt_e x a n = errors_between x (a - 3) (a + n - 3).
Proof.
  intros x a n. unfold errors_between. induction n as [|n IH].
  - cbn [cnt_e]. replace (a + 0 - 3 - (a - 3))%nat with 0%nat by lia. reflexivity.
  - cbn [cnt_e]. rewrite IH.
    destruct (le_lt_dec 3 (a + n)) as [H|H].
    + replace (a + S n - 3 - (a - 3))%nat with (a + n - 3 - (a - 3) + 1)%nat by lia.
      rewrite seq_app, filter_app, app_length.
      replace (a - 3 + (a + n - 3 - (a - 3)))%nat with (a + n - 3)%nat by lia.
      cbn [seq filter].
      assert (E : eflag x (a + n) = word_error (x (a + n - 3)%nat)).
      { destruct (a + n)%nat as [|[|[|k]]] eqn:E; try lia. cbn [eflag]. do 2 f_equal. lia. }
      rewrite E. destruct (word_error _); cbn [length b2z]; lia.
    + assert (E : eflag x (a + n) = false).
      { destruct (a + n)%nat as [|[|[|k]]] eqn:E; try lia; reflexivity. }
      rewrite E. cbn [b2z].
      replace (a + S n - 3 - (a - 3))%nat with 0%nat by lia.
      replace (a + n - 3 - (a - 3))%nat with 0%nat by lia. reflexivity.
Qed.

Lemma wer_published : forall pb : nat, (2 <= pb)%nat ->
  forall x : nat -> Z, (forall n, 0 <= x n < 1024) ->
  let P := (2 ^ pb)%nat in
  forall m n : nat, (P * (m + 1) < n <= P * (m + 2))%nat ->
  w_pub (wer_at (Z.of_nat pb) x n) = errors_between x (P * m - 2) (P * (m + 1) - 3).
Proof.
  intros pb Hpb x Hx P m n Hn.
  pose proof (P_pos pb Hpb) as HP. change (2 ^ pb)%nat with P in HP.
  destruct n as [|n]; [lia|].
  destruct (inv pb Hpb x Hx n (m + 1) (n - P * (m + 1))) as (_ & _ & _ & I).
  - fold P. nia.
  - fold P. nia.
  - rewrite I. replace (m + 1)%nat with (S m) by lia. fold P.
    rewrite cnt_e_errors. f_equal; nia.
Qed.

Lemma wer_published_0 : forall pb : nat, (2 <= pb)%nat ->
  forall x : nat -> Z, (forall n, 0 <= x n < 1024) ->
  forall n : nat, (n <= 2 ^ pb)%nat -> w_pub (wer_at (Z.of_nat pb) x n) = 0.
Proof.
  intros pb Hpb x Hx n Hn. destruct n as [|n]; [reflexivity|].
  destruct (inv pb Hpb x Hx n 0 n) as (_ & _ & _ & I); [lia|lia|exact I].
Qed.

Lemma filter_none : forall (A : Type) (f : A -> bool) l, (forall a, In a l -> f a = false) -> filter f l = [].
Proof.
  intros A f l H. induction l as [|a r IH]; [reflexivity|].
  cbn [filter]. rewrite H by (left; reflexivity). apply IH. intros; apply H; right; assumption.
Qed.

Lemma errors_none : forall x a b, (forall k, (a <= k < b)%nat -> word_error (x k) = false) ->
  errors_between x a b = 0.
Proof.
  intros x a b H. unfold errors_between. rewrite filter_none; [reflexivity|].
  intros k Hk. apply in_seq in Hk. apply H. lia.
Qed.

Lemma legal_no_error : forall w, legal_word w -> word_error w = false.
Proof.
  intros w [H|H].
  - unfold word_error. apply legal_control_in in H. unfold control_words in H. cbn [In] in H.
    destruct H as [<-|[<-|[<-|[<-|[]]]]]; reflexivity.
  - unfold word_error. destruct (pixel_word_facts w H) as (_ & _ & H2 & _).
    apply andb_false_iff. left. apply Z.ltb_ge. lia.
Qed.

(** With legal words only, the running counter itself stays at 0. *)
Lemma wer_zero : forall pb x, (forall n, legal_word (x n)) -> (forall n, 0 <= x n < 1024) ->
  forall n, w_cnt (wer_at pb x n) = 0 /\ w_pub (wer_at pb x n) = 0.
Proof.
  intros pb x H Hr.
  assert (E : forall n, w_err (wer_at pb x n) = false).
  { intros [|[|[|n]]]; [reflexivity..|].
    unfold wer_at; cbn [at_]. unfold wer_step; cbn [w_err w_tc w_ctl w_data].
    rewrite <- (legal_no_error (x n) (H n)). apply wer_flag_ok, Hr. }
  induction n as [|n [I1 I2]]; [split; reflexivity|].
  change (wer_at pb x (S n)) with (wer_step pb (wer_at pb x n) (x n)).
  unfold wer_step; cbn [w_cnt w_pub]. rewrite E, I1, I2.
  split; destruct (w_done _); reflexivity.
Qed.
