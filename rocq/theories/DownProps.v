(** C45, C40: the chroma downsampler under every schedule, gaps included. *)
From Coq Require Import ZArith List Bool Lia Arith.
From Verif Require Import Hdl Trace PipeModel PipeProofs CscModel ChromaProofs CscProps.
Import ListNotations.
Open Scope Z_scope.

(** Distance of slot [k] from the last slot that came with [first] (or from slot 0). *)
Fixpoint place (first : nat -> bool) (k : nat) : nat :=
  match k with O => O | S j => if first k then O else S (place first j) end.

(** What the downsampler makes of slot [k]: its own luma, and the mean chroma of the two slots of its pair, Cb for the
    first slot of the pair and Cr for the second; if the pair is cut short by a [first], Cr for both. *)
Definition down (x : nat -> ds_in) (k : nat) : yc2 :=
  let pix j := dsi_pix (x j) in
  {| d_y := c_y (pix k);
     d_c := if Nat.even (place (fun j => dsi_first (x j)) k) then
              if dsi_first (x (S k)) then (c_cr (pix k) + c_cr (pix (S k))) / 2 else (c_cb (pix k) + c_cb (pix (S k))) / 2
            else (c_cr (pix (k - 1)%nat) + c_cr (pix k)) / 2 |}.

Lemma filter_len : forall (A : Type) (g : A -> bool) l, (length (filter g l) <= length l)%nat.
Proof. intros A g. induction l as [|a l IH]; [reflexivity|]. cbn [filter length]. destruct (g a); cbn [length]; lia. Qed.
Lemma firstn_seq0 : forall m n, (m <= n)%nat -> firstn m (seq 0 n) = seq 0 m.
Proof.
  intros m n H. replace n with (m + (n - m))%nat by lia. rewrite (seq_app m), firstn_app, seq_length, Nat.sub_diag. cbn [firstn].
  rewrite app_nil_r. apply firstn_all2. rewrite seq_length. lia.
Qed.
Section Down.
Variables (w : Z) (x : nat -> ds_in).
Hypothesis Hw : 0 <= w.
Hypothesis Hrange : forall k, 0 <= c_cb (dsi_pix (x k)) < 2 ^ w /\ 0 <= c_cr (dsi_pix (x k)) < 2 ^ w.
Let st k := fold_left (ds_step w) (map x (seq 0 k)) ds_init.
Lemma dn_S : forall k, st (S k) = ds_step w (st k) (x k).
Proof. intros k. unfold st. rewrite seq_S, map_app, fold_left_app. reflexivity. Qed.
Lemma dn_par : forall k, ds_par (st (S k)) = Nat.even (place (fun j => dsi_first (x j)) k).
Proof.
  induction k as [|k IH]; [rewrite dn_S; cbn; rewrite orb_true_r; reflexivity|].
  rewrite dn_S. cbn [ds_step ds_par place]. rewrite IH. destruct (dsi_first (x (S k))); [reflexivity|]. rewrite Nat.even_succ, <- Nat.negb_even. reflexivity.
Qed.
Lemma dn_d1 : forall k, ds_d1 (st (S k)) = dsi_pix (x k).
Proof. intros k. rewrite dn_S. reflexivity. Qed.
Lemma dn_out : forall k, ds_out (st (k + 3)) = down x k.
Proof.
  intros k. replace (k + 3)%nat with (S (S (S k))) by lia. rewrite dn_S. cbn [ds_step ds_out]. unfold down. cbv zeta.
  assert (D2 : ds_d2 (st (S (S k))) = dsi_pix (x k)) by (rewrite dn_S; apply dn_d1). rewrite D2. f_equal.
  rewrite dn_par. cbn [place]. set (e := place _ k) in *. assert (P : ds_par (st (S k)) = Nat.even e) by apply dn_par.
  rewrite (dn_S (S k)). cbn [ds_step ds_crs ds_cbs]. rewrite P, dn_d1.
  assert (SM := fun a b => slice_mean w Hw a b). destruct (Hrange k) as [B1 R1]. destruct (Hrange (S k)) as [B2 R2].
  destruct (Nat.even e) eqn:EV.
  - destruct (dsi_first (x (S k))); [cbn [Nat.even]; apply SM; assumption|]. rewrite Nat.even_succ, <- Nat.negb_even, EV. cbn [negb]. apply SM; assumption.
  - assert (PR : (if dsi_first (x (S k)) then 0%nat else S e) = 0%nat \/ (if dsi_first (x (S k)) then 0%nat else S e) = S e) by (destruct (dsi_first (x (S k))); auto).
    assert (EE : Nat.even (if dsi_first (x (S k)) then 0%nat else S e) = true).
    { destruct (dsi_first (x (S k))); [reflexivity|]. rewrite Nat.even_succ, <- Nat.negb_even, EV. reflexivity. }
    rewrite EE. destruct k as [|k]; [unfold e in EV; discriminate|].
    assert (PK : ds_par (st (S k)) = true).
    { rewrite dn_par. unfold e in EV. cbn [place] in EV. destruct (dsi_first (x (S k))); [discriminate|]. rewrite Nat.even_succ, <- Nat.negb_even in EV.
      apply negb_false_iff. exact EV. }
    rewrite dn_S. cbn [ds_step ds_crs]. rewrite PK, dn_d1. replace (S k - 1)%nat with k by lia. destruct (Hrange k). apply SM; assumption.
Qed.
End Down.

(** Slots are the clocks in which the stage is ready; what it delivers, under every
    schedule of the two sides, is [down] of those slots in which a pixel came, in order. *)
Theorem C45_every_schedule_partial : forall w i n, 0 <= w ->
  (forall t, 0 <= c_cb (dsi_pix (pai_data _ (i t))) < 2 ^ w /\ 0 <= c_cr (dsi_pix (pai_data _ (i t))) < 2 ^ w) ->
  let ready t := pa_sink_ready ds_st ds_in (pa_run _ _ (ds_step w) ds_init ds_latency i t) (i t) in
  let slots := collect (fun t => if ready t then Some (i t) else None) 0 n in
  let x k := pai_data _ (nth k slots {| pai_valid := false; pai_data := ds_null; pai_ready := false |}) in
  let came k := pai_valid _ (nth k slots {| pai_valid := false; pai_data := ds_null; pai_ready := false |}) in
  ds_outputs w i n = map (down x) (filter came (seq 0 (length slots - 3))) /\
  ds_inputs w i n = map x (filter came (seq 0 (length slots))).
Proof.
  intros w i n Hw Hr ready slots x came.
  assert (HL : (0 < ds_latency)%nat) by (unfold ds_latency; lia).
  assert (SL : ds_slots w i n = map (fun a => (pai_valid _ a, pai_data _ a)) slots).
  { unfold ds_slots, pa_slots, slots. clear. induction n as [|n IH]; [reflexivity|]. cbn [collect]. rewrite map_app, <- IH. f_equal.
    unfold ready, pa_sink_ready. cbn [plus]. destruct (pa_ce _ _ _ _); reflexivity. }
  assert (LEN : length (ds_slots w i n) = length slots) by (rewrite SL; apply map_length).
  assert (V : forall k, nth k (map fst (ds_slots w i n)) false = came k).
  { intros k. rewrite SL, map_map. unfold came. set (d := {| pai_valid := false; pai_data := ds_null; pai_ready := false |}).
    change false with (fst (pai_valid ds_in d, pai_data ds_in d)) at 1. rewrite (map_nth (fun a => fst (pai_valid ds_in a, pai_data ds_in a))). reflexivity. }
  assert (XS : map snd (ds_slots w i n) = map x (seq 0 (length slots))).
  { rewrite SL, map_map. unfold x. set (d := {| pai_valid := false; pai_data := ds_null; pai_ready := false |}). clear - slots.
    generalize slots. intros l. cbn [snd]. induction l as [|a l IH]; [reflexivity|]. cbn [length seq map nth]. f_equal. rewrite <- seq_shift, map_map. exact IH. }
  assert (RX : forall k, 0 <= c_cb (dsi_pix (x k)) < 2 ^ w /\ 0 <= c_cr (dsi_pix (x k)) < 2 ^ w).
  { intros k. unfold x. destruct (Nat.lt_ge_cases k (length slots)) as [LT|GE].
    - assert (IN : In (nth k slots {| pai_valid := false; pai_data := ds_null; pai_ready := false |}) slots) by (apply nth_In; exact LT).
      assert (AL : forall l, In l slots -> exists t, l = i t).
      { unfold slots. clear. induction n as [|n IH]; [intros l []|]. intros l H. cbn [collect] in H. apply in_app_iff in H as [H|H]; [exact (IH l H)|].
        cbn [plus] in H. destruct (ready n); [|destruct H]. destruct H as [<-|[]]. exists n. reflexivity. }
      destruct (AL _ IN) as (t & ->). apply Hr.
    - rewrite nth_overflow by exact GE. assert (0 < 2 ^ w) by (apply Z.pow_pos_nonneg; lia). cbn. lia. }
  split.
  - unfold ds_outputs. rewrite (pa_outputs_general _ _ _ (ds_step w) ds_out ds_init ds_latency HL i n). fold (ds_slots w i n). rewrite LEN.
    change ds_latency with 3%nat. rewrite (filter_ext _ came) by exact V. apply map_ext_in. intros k K. apply filter_In in K as [K _]. apply in_seq in K.
    rewrite XS. rewrite firstn_map. replace (firstn (k + 3) (seq 0 (length slots))) with (seq 0 (k + 3)).
    + apply (dn_out w x Hw RX).
    + symmetry. apply firstn_seq0. lia.
  - unfold ds_inputs. rewrite pa_inputs_slots. fold (ds_slots w i n). rewrite SL.
    transitivity (map x (filter (fun j => nth j (map fst (ds_slots w i n)) false) (seq 0 (length slots)))); [|f_equal; apply filter_ext; exact V].
    rewrite (filter_ext _ came) by exact V. unfold came, x. set (d := {| pai_valid := false; pai_data := ds_null; pai_ready := false |}). clear - slots.
    generalize slots. intros l. induction l as [|a l IH]; [reflexivity|]. cbn [length seq map filter nth fst]. rewrite <- seq_shift.
    assert (FM : forall (f : nat -> bool) l0, filter f (map S l0) = map S (filter (fun k => f (S k)) l0)).
    { intros f. induction l0 as [|b l0 IH0]; [reflexivity|]. cbn [map filter]. destruct (f (S b)); cbn [map]; rewrite IH0; reflexivity. }
    rewrite FM. destruct (pai_valid _ a); cbn [map nth snd]; rewrite map_map; cbn [nth]; [f_equal|]; exact IH.
Qed.
Print Assumptions C45_every_schedule_partial.

(** No pixel is lost or reordered under any schedule: as many leave as came, up to three still inside, with their lumas
    in order (their chroma is that of the theorem above). *)
Theorem C40_downsampler_luma_partial : forall w i n, 0 <= w ->
  (forall t, 0 <= c_cb (dsi_pix (pai_data _ (i t))) < 2 ^ w /\ 0 <= c_cr (dsi_pix (pai_data _ (i t))) < 2 ^ w) ->
  exists rest, map (fun p => c_y (dsi_pix p)) (ds_inputs w i n) = map d_y (ds_outputs w i n) ++ rest /\ (length rest <= 3)%nat.
Proof.
  intros w i n Hw Hr. destruct (C45_every_schedule_partial w i n Hw Hr) as [O I]. cbv zeta in O, I. rewrite O, I. clear O I.
  set (slots := collect _ 0 n). set (d := {| pai_valid := false; pai_data := ds_null; pai_ready := false |}).
  assert (SP : seq 0 (length slots) = seq 0 (length slots - 3) ++ seq (length slots - 3) (length slots - (length slots - 3)))
    by (etransitivity; [|exact (seq_app (length slots - 3) (length slots - (length slots - 3)) 0)]; f_equal; lia).
  rewrite SP.
  rewrite filter_app, !map_app, !map_map. eexists. split; [reflexivity|]. rewrite !map_length.
  etransitivity; [apply filter_len|]. rewrite seq_length. lia.
Qed.
Print Assumptions C40_downsampler_luma_partial.

(** The hypotheses hold of the stream of [C45_gaps_refuted]. *)
Example C45_gap_hyps : forall t, 0 <= c_cb (dsi_pix (pai_data _ (ex_ds t))) < 2 ^ 8 /\ 0 <= c_cr (dsi_pix (pai_data _ (ex_ds t))) < 2 ^ 8.
Proof. intros t. do 3 (destruct t as [|t]; [cbn; lia|]). cbn. lia. Qed.
(** The stream of [C45_gaps_refuted], with its gap: the first pixel gets half its chroma from the empty slot. *)
Example C45_gap_case : ds_outputs 8 ex_ds 7 = [{| d_y := 1; d_c := 5 |}; {| d_y := 2; d_c := 25 |}; {| d_y := 3; d_c := 26 |}].
Proof. vm_compute. reflexivity. Qed.
