(** C36, C67: what the code does in every case. *)
From Coq Require Import ZArith List Bool Lia Arith.
From Verif Require Import Hdl Trace TimingModel VideoOutModel VideoOutProps AnalysisModel YccPathModel YccPathProofs YccPathProps.
Import ListNotations.
Open Scope nat_scope.

(** * C36 *)

(** Data of the transferred clocks in which the DMA has a word. *)
Definition transferred_words w i a n : list Z :=
  collect (fun m => if xfer true w i m && si_dv (i m) then Some (pixel true w i m) else None) a n.

(** Whatever the DMA's schedule, over any stretch with parameters available: the clocks in which it has a word carry its words in
    order, none missing; a clock in which it has none is transferred only in blanking, and takes no word, so the word after it is one
    clock late. *)
Theorem C36_every_schedule_partial : forall w i a n,
  (forall m, a <= m < a + n -> si_valid (i m) = true) ->
  let d := transferred_words w i a n in
  d = map w (seq (vs_taken (vs_run true w i a)) (length d)) /\
  vs_taken (vs_run true w i (a + n)) = vs_taken (vs_run true w i a) + length d /\
  length (transferred true w i a n) = length d + occurrences (fun m => xfer true w i m && negb (si_dv (i m))) a n /\
  forall m, a <= m < a + n -> xfer true w i m = true -> si_dv (i m) = false -> de_of true w i m = false.
Proof.
  intros w i a. induction n as [|n IH]; intros Hv.
  - cbn. rewrite Nat.add_0_r. repeat split; lia.
  - cbv zeta in *. destruct IH as (I1 & I2 & I3 & I4); [intros; apply Hv; lia|].
    pose proof (Hv (a + n) ltac:(lia)) as V.
    assert (X : xfer true w i (a + n) = (negb (de_of true w i (a + n)) || si_dv (i (a + n))) && si_ready (i (a + n))).
    { unfold xfer, de_of, vo_transfer, vo_valid. cbn [vs_vi vi_valid vi_dv vi_ready]. rewrite V. reflexivity. }
    assert (TK : vs_taken (vs_run true w i (S (a + n))) =
      vs_taken (vs_run true w i (a + n)) + (if xfer true w i (a + n) && si_dv (i (a + n)) then 1 else 0)).
    { change (vs_run true w i (S (a + n))) with (vs_step true w (vs_run true w i (a + n)) (i (a + n))). unfold vs_step. cbn [vs_taken].
      unfold vo_dready, xfer, vo_transfer. cbn [vs_vi vi_valid vi_dv]. rewrite V. cbn [negb]. rewrite orb_true_r, andb_true_r.
      destruct (si_dv (i (a + n))); cbn [andb]; [rewrite andb_true_r|rewrite andb_false_r; lia].
      unfold vs_vi. rewrite V. destruct (vo_valid _ _ && _); lia. }
    assert (PX : pixel true w i (a + n) = w (vs_taken (vs_run true w i (a + n)))) by reflexivity.
    rewrite Nat.add_succ_r. split; [|split; [|split]].
    + unfold transferred_words in *. cbn [collect]. set (d := collect _ a n) in *. destruct (xfer true w i (a + n) && si_dv (i (a + n))).
      * rewrite app_length, seq_app, map_app, <- I1. cbn [length seq map]. rewrite PX, I2. reflexivity.
      * rewrite app_nil_r. exact I1.
    + rewrite TK, I2. unfold transferred_words. cbn [collect]. rewrite app_length. destruct (xfer true w i (a + n) && si_dv (i (a + n))); cbn [length]; lia.
    + unfold transferred, transferred_words in *. cbn [collect occurrences]. rewrite !app_length, I3.
      destruct (xfer true w i (a + n)), (si_dv (i (a + n))); cbn [andb negb length]; lia.
    + intros m Hm T DV. destruct (Nat.eq_dec m (a + n)) as [->|N]; [|apply I4; [lia|assumption..]].
      rewrite X, DV, orb_false_r in T. apply andb_true_iff in T as [T _]. apply negb_true_iff, T.
Qed.
Print Assumptions C36_every_schedule_partial.

(** A scan of four clocks with one pixel; the DMA has no word in every third clock. *)
Definition ex_gaps (m : nat) : vs_in := {| si_valid := true; si_p := ex_t; si_dv := negb (m mod 3 =? 1); si_ready := true |}.
Example ex_gaps_case : transferred_words Z.of_nat ex_gaps 0 9 = [0; 1; 2; 3; 4; 5]%Z /\ length (transferred true Z.of_nat ex_gaps 0 9) = 8.
Proof. vm_compute. split; reflexivity. Qed.

(** * C67 *)

(** Every pixel comes out of the converters eleven clocks later and is then counted in the frame reached by then: its own, plus the
    rises of vsync since it came.  If vsync rises in that very clock, the packer goes on as if there had been no pixel. *)
Theorem C67_every_pixel_partial : forall F i m, fi_valid (i m) = true -> fi_de (i m) = true ->
  fe_pixel (fe_run F i (m + 11)) (i (m + 11)) <> None /\
  frame_packed F i (m + 11) = frame_in i m + occurrences (vs_rise i) (m + 1) 11 /\
  (vs_rise i (m + 11) = true ->
   let x := fe_pk_in (fe_run F i (m + 11)) (i (m + 11)) in
   fe_pk (fe_run F i (m + 12)) = pk_step F (fe_pk (fe_run F i (m + 11))) {| pki_vsync := pki_vsync x; pki_we := false; pki_px := 0 |}).
Proof.
  intros F i m V D. split; [|split].
  - apply C65_nothing_else. exists m. auto.
  - rewrite frame_packed_in. unfold frame_in. replace (m + 11 + 1) with (m + 1 + 11) by lia.
    assert (A : forall p k j, occurrences p 0 (k + j) = occurrences p 0 k + occurrences p k j).
    { intros p k j. induction j as [|j IH]; [cbn; rewrite !Nat.add_0_r; reflexivity|]. rewrite Nat.add_succ_r. cbn [occurrences].
      rewrite IH. cbn [plus]. lia. }
    apply A.
  - intros R x. replace (m + 12) with (S (m + 11)) by lia. rewrite !fe_pk_at. unfold pk_run. cbn [at_]. fold (pk_run F (fun m => fe_pk_in (fe_run F i m) (i m)) (m + 11)).
    rewrite <- fe_pk_at. fold x.
    assert (NF : pk_new_frame (fe_pk (fe_run F i (m + 11))) x = true).
    { unfold pk_new_frame, x. cbn [fe_pk_in pki_vsync]. unfold vs_rise in R. replace (m + 11) with (S (m + 10)) in * by lia. exact R. }
    unfold pk_step.
    assert (NF2 : pk_new_frame (fe_pk (fe_run F i (m + 11))) {| pki_vsync := pki_vsync x; pki_we := false; pki_px := 0 |} = true) by exact NF.
    rewrite NF, NF2. reflexivity.
Qed.
Print Assumptions C67_every_pixel_partial.

(** Three pixels three to seven clocks before a rise of vsync: all of them are counted in the next frame. *)
Example ex_late : let i := YccPathProps.ex_vs in fi_valid (i 3) = true /\ fi_de (i 3) = true /\ frame_in i 3 = 0 /\ occurrences (vs_rise i) 4 11 = 1.
Proof. vm_compute. repeat split. Qed.
