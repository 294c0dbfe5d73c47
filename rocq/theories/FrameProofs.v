(** Lemmas about the pixel packer of FrameExtraction. *)
From Coq Require Import ZArith List Bool Lia Arith.
From Verif Require Import Hdl Trace AnalysisModel.
Import ListNotations.
Open Scope nat_scope.

Lemma log2_pred_pow2 : forall k : nat, 1 <= k -> Z.log2 (2 ^ Z.of_nat k - 1) = (Z.of_nat k - 1)%Z.
Proof. intros k Hk. rewrite <- Z.sub_1_r || idtac. rewrite Z.sub_1_r, Z.log2_pred_pow2 by lia. lia. Qed.

Lemma pk_bits_pow2 : forall k, 1 <= k -> pk_bits (2 ^ k) = Z.of_nat k.
Proof.
  intros k Hk. unfold pk_bits, bits_for.
  assert (E : Z.of_nat (2 ^ k) = (2 ^ Z.of_nat k)%Z) by (rewrite Nat2Z.inj_pow; reflexivity).
  rewrite E. assert (2 <= 2 ^ Z.of_nat k)%Z.
  { change 2%Z with (2 ^ 1)%Z at 1. apply Z.pow_le_mono_r; lia. }
  destruct (Z.leb_spec (2 ^ Z.of_nat k - 1) 0); [lia|]. rewrite log2_pred_pow2 by lia. lia.
Qed.

Section Pack.
Variable k : nat.
Hypothesis Hk : 1 <= k.
Let F := 2 ^ k.
Variable i : nat -> pk_in.
Let st := pk_run F i.
Let vsync t := pki_vsync (i t).
Let pixel t := if pki_we (i t) then Some (pki_px (i t)) else None.
Let pushed t := pk_push (st t).

Lemma F_ge : 2 <= F.
Proof. unfold F. change 2 with (2 ^ 1) at 1. apply Nat.pow_le_mono_r; lia. Qed.

Lemma st_S : forall n, st (S n) = pk_step F (st n) (i n).
Proof. reflexivity. Qed.

Lemma vs_r_eq : forall n, pk_vs_r (st n) = match n with O => false | S m => vsync m end.
Proof. destruct n; reflexivity. Qed.

Lemma nf_eq : forall n, pk_new_frame (st n) (i n) = rises vsync n.
Proof. intros n. unfold pk_new_frame. rewrite vs_r_eq. reflexivity. Qed.

Lemma lanes_length : forall n, length (pk_lanes (st n)) = F.
Proof.
  induction n as [|n IH]; [apply repeat_length|].
  rewrite st_S. unfold pk_step. cbn [pk_lanes].
  destruct (pk_new_frame _ _); [exact IH|]. destruct (pki_we _); [|exact IH].
  rewrite map_length, seq_length. reflexivity.
Qed.

Lemma cnt_succ : forall c : nat, c < F ->
  trunc (pk_bits F) (Z.of_nat c + 1) = Z.of_nat (if Nat.eqb c (F - 1) then 0 else S c).
Proof.
  intros c Hc. unfold F. rewrite pk_bits_pow2 by exact Hk. unfold trunc.
  assert (E : (2 ^ Z.of_nat k)%Z = Z.of_nat F) by (unfold F; rewrite Nat2Z.inj_pow; reflexivity).
  rewrite E. fold F. pose proof F_ge. destruct (Nat.eqb_spec c (F - 1)).
  - subst c. replace (Z.of_nat (F - 1) + 1)%Z with (Z.of_nat F) by lia. rewrite Z.mod_same by lia. reflexivity.
  - rewrite Z.mod_small by lia. lia.
Qed.

(** State between two frame starts: [P] the pixels received so far, [W] the
    words pushed, in pixel order. *)
Definition filled (s : pk_st) (P : list Z) (W : list (list Z)) : Prop :=
  exists tail, P = concat W ++ tail /\ length tail < F /\ pk_cnt s = Z.of_nat (length tail) /\
    (forall w, In w W -> length w = F) /\
    (forall j, j < length tail -> nth (F - 1 - j) (pk_lanes s) 0%Z = nth j tail 0%Z).

Lemma filled_step : forall n P W, rises vsync n = false -> filled (st n) P W ->
  filled (st (S n)) (P ++ match pixel n with Some x => [x] | None => [] end)
         (W ++ match pushed (S n) with Some w => [rev (snd w)] | None => [] end).
Proof.
  intros n P W Hr (tail & HP & HT & HC & HW & HL). pose proof F_ge as HF.
  unfold pushed, pk_push. rewrite st_S. unfold pk_step. rewrite nf_eq, Hr.
  cbn [pk_valid pk_lanes pk_cnt pk_sof]. unfold pixel.
  destruct (pki_we (i n)) eqn:E.
  - rewrite HC. set (x := pki_px (i n)). set (c := length tail) in *.
    assert (LN : forall j, j < S c -> nth (F - 1 - j)
        (map (fun q => if (Z.of_nat c =? Z.of_nat (F - q - 1))%Z then x else nth q (pk_lanes (st n)) 0%Z) (seq 0 F)) 0%Z
        = nth j (tail ++ [x]) 0%Z).
    { intros j Hj. rewrite nth_map_seq by lia. destruct (Z.eqb_spec (Z.of_nat c) (Z.of_nat (F - (F - 1 - j) - 1))) as [X|X].
      - assert (j = c) by lia. subst j. rewrite app_nth2 by (unfold c; lia). unfold c. rewrite Nat.sub_diag. reflexivity.
      - rewrite app_nth1 by (unfold c in *; lia). apply HL. lia. }
    destruct (Z.eqb_spec (Z.of_nat c) (Z.of_nat F - 1)) as [X|X].
    + assert (RV : rev (map (fun q => if (Z.of_nat c =? Z.of_nat (F - q - 1))%Z then x else nth q (pk_lanes (st n)) 0%Z) (seq 0 F))
                  = tail ++ [x]).
      { apply (nth_ext _ _ 0%Z 0%Z).
        - rewrite rev_length, map_length, seq_length, app_length. cbn. unfold c in *. lia.
        - intros j Hj. rewrite rev_length, map_length, seq_length in Hj.
          rewrite rev_nth by (rewrite map_length, seq_length; exact Hj).
          rewrite map_length, seq_length. replace (F - S j) with (F - 1 - j) by lia. apply LN. lia. }
      cbn [snd]. rewrite RV. exists []. cbn [length]. repeat split.
      * rewrite concat_app. cbn [concat]. rewrite !app_nil_r, HP, app_assoc. reflexivity.
      * lia.
      * cbn [pk_cnt]. rewrite cnt_succ by lia. destruct (Nat.eqb_spec c (F - 1)); [reflexivity|lia].
      * intros w Hw. apply in_app_or in Hw. destruct Hw as [Hw|[<-|[]]]; [apply HW, Hw|].
        rewrite app_length. cbn. unfold c in *. lia.
      * intros j Hj. lia.
    + exists (tail ++ [x]). rewrite app_nil_r. repeat split.
      * rewrite HP, app_assoc. reflexivity.
      * rewrite app_length. cbn. unfold c in *. lia.
      * cbn [pk_cnt]. rewrite cnt_succ by lia. rewrite app_length. cbn.
        destruct (Nat.eqb_spec c (F - 1)); [lia|]. unfold c. lia.
      * exact HW.
      * intros j Hj. cbn [pk_lanes]. rewrite app_length in Hj. cbn in Hj. apply LN. unfold c. lia.
  - rewrite !app_nil_r. exists tail. repeat split; assumption.
Qed.

Lemma filled_frame : forall t1 m, rises vsync t1 = true ->
  (forall t, t1 < t < t1 + S m -> rises vsync t = false) ->
  filled (st (t1 + S m)) (collect pixel (S t1) m)
         (map (fun w => rev (snd w)) (collect pushed (t1 + 2) m)).
Proof.
  intros t1 m R. induction m as [|m IH]; intros H.
  - cbn [collect map]. rewrite Nat.add_1_r. exists []. pose proof F_ge. repeat split; try (cbn; lia).
    rewrite st_S. unfold pk_step. rewrite nf_eq, R. reflexivity.
  - rewrite Nat.add_succ_r. cbn [collect]. rewrite map_app.
    specialize (IH ltac:(intros; apply H; lia)).
    pose proof (filled_step (t1 + S m) _ _ (H (t1 + S m) ltac:(lia)) IH) as X.
    replace (S t1 + m) with (t1 + S m) by lia.
    replace (t1 + 2 + m) with (S (t1 + S m)) by lia.
    destruct (pushed (S (t1 + S m))); exact X.
Qed.

(** sof along a frame. *)
Lemma sof_step : forall n, rises vsync n = false ->
  pk_sof (st (S n)) = if pk_valid (st n) then false else pk_sof (st n).
Proof. intros n H. rewrite st_S. unfold pk_step. cbn [pk_sof]. rewrite nf_eq, H. reflexivity. Qed.

Lemma sof_frame : forall t1 m, rises vsync t1 = true ->
  (forall t, t1 < t < t1 + S m -> rises vsync t = false) ->
  pk_sof (st (t1 + S m)) = Nat.eqb (occurrences (fun t => pk_valid (st t)) (S t1) m) 0.
Proof.
  intros t1 m R. induction m as [|m IH]; intros H.
  - rewrite Nat.add_1_r, st_S. unfold pk_step. cbn [pk_sof]. rewrite nf_eq, R. reflexivity.
  - rewrite Nat.add_succ_r, sof_step by (apply H; lia). rewrite IH by (intros; apply H; lia).
    cbn [occurrences]. replace (S t1 + m) with (t1 + S m) by lia.
    destruct (pk_valid (st (t1 + S m))).
    + symmetry. apply Nat.eqb_neq. lia.
    + rewrite Nat.add_0_r. reflexivity.
Qed.

Lemma valid_at_start : forall t1, rises vsync t1 = true ->
  pk_valid (st (S t1)) = (pk_cnt (st t1) =? Z.of_nat F - 1)%Z.
Proof. intros t1 R. rewrite st_S. unfold pk_step. cbn [pk_valid]. rewrite nf_eq, R. reflexivity. Qed.

(** Counter at the end of a frame. *)
Lemma filled_cnt : forall s P W, filled s P W -> pk_cnt s = (Z.of_nat (length P) mod Z.of_nat F)%Z.
Proof.
  intros s P W (tail & -> & HT & HC & HW & _). rewrite HC, app_length.
  assert (E : exists q, length (concat W) = q * F).
  { clear - HW. induction W as [|w W IH]; [exists 0; reflexivity|].
    destruct IH as [q Hq]; [intros x Hx; apply HW; right; exact Hx|].
    exists (S q). cbn [concat]. rewrite app_length, Hq, (HW w) by (left; reflexivity). lia. }
  destruct E as [q ->]. rewrite Nat2Z.inj_add, Nat2Z.inj_mul, Z.add_comm, Z.mod_add by (pose proof F_ge; lia).
  rewrite Z.mod_small by lia. reflexivity.
Qed.

End Pack.
