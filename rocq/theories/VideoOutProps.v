(** C34-C38: frame reader, output core, underflow counter. *)
From Coq Require Import ZArith List Bool Lia.
From Verif Require Import Hdl Trace TimingModel TimingSpec TimingProofs VideoOutModel VideoOutProofs.
Import ListNotations.
Open Scope Z_scope.

(** * C34 *)

(** Addresses taken by the memory in clocks [a, a+n). *)
Definition addresses genlock aw delay (i : nat -> dr_in) (a n : nat) : list Z :=
  collect (fun m => dr_taken aw (dr_run genlock aw delay i m) (i m)) a n.

(** A frame started in any clock [t] (reader idle, parameters valid), whatever
    happened before: when the memory has been ready [length - offset0] times after [t], the
    last of them in clock [t+1+n], exactly the addresses base+offset0 ... base+length-1 were
    taken, in order; the completion is signalled in that clock and not before; and the
    reader is no longer reading in the next clock.  [offset0] is 0 without a genlock stream. *)
Theorem C34_frame_read_contiguously :
  forall (genlock : bool) aw delay i t base len n, 0 <= aw ->
  let off0 := if genlock then trunc aw delay else 0 in
  off0 < len <= 2 ^ aw ->
  dr_state (dr_run genlock aw delay i t) = DR_IDLE -> dri_valid (i t) = true ->
  (forall m, (t < m)%nat -> dri_base (i m) = base /\ dri_length (i m) = len) ->
  dri_ready (i (S t + n)%nat) = true ->
  Z.of_nat (occurrences (fun m => dri_ready (i m)) (S t) n) = len - off0 - 1 ->
  addresses genlock aw delay i (S t) (S n) =
    map (fun k => (base + off0 + Z.of_nat k) mod 2 ^ aw) (seq 0 (Z.to_nat (len - off0))) /\
  dr_done (dr_run genlock aw delay i (S t + n)) (i (S t + n)%nat) = true /\
  (forall m, (S t <= m < S t + n)%nat -> dr_done (dr_run genlock aw delay i m) (i m) = false) /\
  dr_addr_valid (dr_run genlock aw delay i (S t + S n)) = false.
Proof.
  intros genlock aw delay i t base len n Haw off0 Hlen Hi Hv Hc Hr Ho.
  destruct (dr_pass genlock aw delay i t base len Haw Hlen Hi Hv Hc n) as (P1 & P2 & P3 & P4); [fold off0; lia|].
  fold off0 in P2, P3. destruct (Hc (S t + n)%nat ltac:(lia)) as [Hb Hl].
  assert (D : dr_done (dr_run genlock aw delay i (S t + n)) (i (S t + n)%nat) = true).
  { unfold dr_done, dr_addr_valid. rewrite P1, Hr, P2, Ho, Hl. apply Z.eqb_eq. lia. }
  split; [|split; [exact D|split; [exact P4|]]].
  - unfold addresses. cbn [collect]. rewrite P3. unfold dr_taken, dr_addr_valid, dr_addr. rewrite P1, Hr, Hb, P2. cbn [andb].
    replace (Z.to_nat (len - off0)) with (occurrences (fun m => dri_ready (i m)) (S t) n + 1)%nat by lia.
    rewrite seq_app, map_app. unfold trunc. cbn [seq map plus]. rewrite Z.add_assoc. reflexivity.
  - rewrite Nat.add_succ_r. unfold dr_addr_valid.
    change (dr_run genlock aw delay i (S (S t + n))) with (dr_step genlock aw delay (dr_run genlock aw delay i (S t + n)) (i (S t + n)%nat)).
    unfold dr_step. cbn [dr_state]. rewrite P1, D. destruct genlock; reflexivity.
Qed.

(** No address before a frame is completed lies outside it: the prefix form, for every clock. *)
Theorem C34_prefix :
  forall (genlock : bool) aw delay i t base len n, 0 <= aw ->
  let off0 := if genlock then trunc aw delay else 0 in
  off0 < len <= 2 ^ aw ->
  dr_state (dr_run genlock aw delay i t) = DR_IDLE -> dri_valid (i t) = true ->
  (forall m, (t < m)%nat -> dri_base (i m) = base /\ dri_length (i m) = len) ->
  let c := occurrences (fun m => dri_ready (i m)) (S t) n in
  Z.of_nat c < len - off0 ->
  addresses genlock aw delay i (S t) n = map (fun k => (base + off0 + Z.of_nat k) mod 2 ^ aw) (seq 0 c) /\
  dr_addr_valid (dr_run genlock aw delay i (S t + n)) = true.
Proof.
  intros genlock aw delay i t base len n Haw off0 Hlen Hi Hv Hc c Hlt.
  destruct (dr_pass genlock aw delay i t base len Haw Hlen Hi Hv Hc n) as (P1 & P2 & P3 & P4); [fold off0; fold c; lia|].
  split; [exact P3|]. unfold dr_addr_valid. rewrite P1. reflexivity.
Qed.

(** With constant parameters (no genlock) the frame is read over and over. *)
Theorem C34_repeats : forall aw base len i, 0 <= aw -> 0 < len <= 2 ^ aw ->
  (forall n, dri_valid (i n) = true /\ dri_base (i n) = base /\ dri_length (i n) = len) ->
  forall n, addresses false aw 0 i 0 n =
    map (fun k => (base + Z.of_nat k mod len) mod 2 ^ aw) (seq 0 (length (addresses false aw 0 i 0 n))).
Proof.
  intros aw base len i Haw Hlen Hc n.
  enough (dr_rel len (dr_run false aw 0 i n) (Z.of_nat (length (addresses false aw 0 i 0 n))) /\
    addresses false aw 0 i 0 n =
    map (fun k => (base + Z.of_nat k mod len) mod 2 ^ aw) (seq 0 (length (addresses false aw 0 i 0 n)))) by tauto.
  induction n as [|n [R E]].
  - split; [|reflexivity]. unfold dr_rel. cbn [dr_run at_ dr_init dr_state]. apply Z.mod_0_l. lia.
  - destruct (Hc n) as (Hv & Hb & Hl).
    pose proof (dr_rel_step aw base len Haw Hlen _ (Z.of_nat (length (addresses false aw 0 i 0 n))) (i n) ltac:(lia) Hv Hb Hl R) as RS.
    unfold addresses in *. cbn [collect plus].
    change (dr_run false aw 0 i (S n)) with (dr_step false aw 0 (dr_run false aw 0 i n) (i n)).
    destruct (dr_taken aw (dr_run false aw 0 i n) (i n)) as [a|].
    + destruct RS as [EA RS]. rewrite app_length. cbn [length]. rewrite Nat2Z.inj_add. split; [exact RS|].
      rewrite seq_app, map_app, <- E. cbn [seq map plus]. rewrite EA. reflexivity.
    + rewrite app_nil_r. split; assumption.
Qed.

(** * C35 / C36 *)

(** Clock [m] transfers a pixel / a displayed pixel. *)
Definition xfer raw w i m : bool := vo_transfer (vs_tg (vs_run raw w i m)) (vs_vi w (vs_run raw w i m) (i m)).
Definition de_of raw w i m : bool := tg_de (si_valid (i m)) (vs_tg (vs_run raw w i m)).
Definition pixel raw w i m : Z := vi_data (vs_vi w (vs_run raw w i m) (i m)).
Definition displayed raw w i a n : list Z :=
  collect (fun m => if xfer raw w i m && de_of raw w i m then Some (pixel raw w i m) else None) a n.
Definition transferred raw w i a n : list Z :=
  collect (fun m => if xfer raw w i m then Some (pixel raw w i m) else None) a n.

(** C35.  In any stretch of clocks with parameters available, the displayed pixels
    are exactly the words delivered by the DMA in that stretch: consecutive words starting with the
    one on offer at the beginning, none skipped, repeated or taken without being displayed. *)
Theorem C35_displayed_words : forall w i a n,
  (forall m, (a <= m < a + n)%nat -> si_valid (i m) = true) ->
  let d := displayed false w i a n in
  d = map w (seq (vs_taken (vs_run false w i a)) (length d)) /\
  vs_taken (vs_run false w i (a + n)) = (vs_taken (vs_run false w i a) + length d)%nat.
Proof.
  intros w i a. induction n as [|n IH]; intros Hv.
  - cbn. rewrite Nat.add_0_r. split; [reflexivity|lia].
  - cbv zeta in *. destruct IH as [I1 I2]; [intros; apply Hv; lia|].
    pose proof (Hv (a + n)%nat ltac:(lia)) as V.
    rewrite Nat.add_succ_r. unfold displayed in *. cbn [collect]. set (d := collect _ a n) in *. clearbody d.
    change (vs_run false w i (S (a + n))) with (vs_step false w (vs_run false w i (a + n)) (i (a + n)%nat)).
    unfold vs_step. cbn [vs_taken]. unfold xfer, de_of, pixel.
    set (s := vs_run false w i (a + n)) in *.
    unfold vo_dready, vo_transfer, vo_valid. cbn [vs_vi vi_valid vi_dv vi_ready vi_data]. rewrite V. cbn [negb andb].
    rewrite orb_false_r.
    destruct (tg_de true (vs_tg s)); cbn [negb orb andb].
    + destruct (si_dv (i (a + n)%nat)), (si_ready (i (a + n)%nat)); cbn [andb];
        try (rewrite app_nil_r; split; assumption).
      rewrite app_length. cbn [length]. rewrite seq_app, map_app, <- I1, I2. cbn [seq map]. split; [reflexivity|lia].
    + rewrite !andb_false_r. rewrite app_nil_r. split; assumption.
Qed.

(** C36 is false: in blanking a raw word is not waited for. *)
Definition ex_t : fparam :=
  {| p_hres := 1; p_hs_start := 2; p_hs_end := 3; p_hscan := 3;
     p_vres := 1; p_vs_start := 1; p_vs_end := 1; p_vscan := 1 |}.
Theorem C36_raw_order_refuted : exists w i n,
  (forall m, si_valid (i m) = true) /\
  transferred true w i 0 n <> map w (seq 0 (length (transferred true w i 0 n))).
Proof.
  exists Z.of_nat, (fun m => {| si_valid := true; si_p := ex_t; si_dv := negb (m =? 0)%nat; si_ready := true |}), 3%nat.
  split; [reflexivity|]. vm_compute. discriminate.
Qed.

(** The strongest form that holds: the words come in order as long as the DMA
    always has a word available (missing: stretches in which it has not). *)
Theorem C36_raw_order_partial : forall w i a n,
  (forall m, (a <= m < a + n)%nat -> si_valid (i m) = true /\ si_dv (i m) = true) ->
  let d := transferred true w i a n in
  d = map w (seq (vs_taken (vs_run true w i a)) (length d)) /\
  vs_taken (vs_run true w i (a + n)) = (vs_taken (vs_run true w i a) + length d)%nat.
Proof.
  intros w i a. induction n as [|n IH]; intros Hv.
  - cbn. rewrite Nat.add_0_r. split; [reflexivity|lia].
  - cbv zeta in *. destruct IH as [I1 I2]; [intros; apply Hv; lia|].
    destruct (Hv (a + n)%nat ltac:(lia)) as [V DV].
    rewrite Nat.add_succ_r. unfold transferred in *. cbn [collect]. set (d := collect _ a n) in *. clearbody d.
    change (vs_run true w i (S (a + n))) with (vs_step true w (vs_run true w i (a + n)) (i (a + n)%nat)).
    unfold vs_step. cbn [vs_taken]. unfold xfer, pixel.
    set (s := vs_run true w i (a + n)) in *.
    unfold vo_dready, vo_transfer, vo_valid. cbn [vs_vi vi_valid vi_dv vi_ready vi_data]. rewrite V, DV. cbn [negb andb].
    rewrite !orb_true_r, andb_true_r. cbn [andb].
    destruct (si_ready (i (a + n)%nat)).
    + rewrite app_length. cbn [length]. rewrite seq_app, map_app, <- I1, I2. cbn [seq map]. split; [reflexivity|lia].
    + rewrite app_nil_r. split; assumption.
Qed.

(** * C37 *)

(** Addresses of the displayed pixels of the composed core. *)
Definition shown_from aw depth q i n : list Z :=
  collect (fun m => let s := vt_run aw depth q i m in
             if vt_xfer s (i m) && tg_de (vt_valid s) (vt_tg s) then Some (vi_data (vt_vi s (i m))) else None) 0 n.

(** With constant parameters: the pixel displayed at frame [f], line [y], column [x] is the word
    base + y*hres + x, for every frame. *)
Theorem C37_constant_parameters_partial : forall aw depth pr i, 0 <= aw ->
  params_ok (vp_t pr) -> 0 < vp_length pr <= 2 ^ aw ->
  vp_length pr = p_hres (vp_t pr) * p_vres (vp_t pr) ->
  (forall n q, ti_push (i n) = Some q -> q = pr) ->
  (forall n, vt_q (vt_run aw depth [pr] i n) <> []) ->
  forall n f y x, 0 <= f -> 0 <= y < p_vres (vp_t pr) -> 0 <= x < p_hres (vp_t pr) ->
  let s := vt_run aw depth [pr] i n in
  Z.of_nat (occurrences (fun m => vt_xfer (vt_run aw depth [pr] i m) (i m)) 0 n) =
    1 + (f * (p_vscan (vp_t pr) + 1) + y) * (p_hscan (vp_t pr) + 1) + x ->
  tg_de (vt_valid s) (vt_tg s) = true /\
  (vt_xfer s (i n) = true ->
   vi_data (vt_vi s (i n)) = (vp_base pr + y * p_hres (vp_t pr) + x) mod 2 ^ aw).
Proof.
  intros aw depth pr i Haw ok Hlen Hl Hpush Hq n f y x Hf Hy Hx s Ha.
  assert (Hv : vt_valid s = true) by exact (proj2 (vt_head_const aw depth pr i Hpush dr_init [] Hq n)).
  assert (Ht : vt_tg s = tg_at (vp_t pr) (Z.of_nat (occurrences (fun m => vt_xfer (vt_run aw depth [pr] i m) (i m)) 0 n)))
    by exact (vt_tg_at aw depth pr i ok Hpush dr_init [] Hq n).
  set (k := (f * (p_vscan (vp_t pr) + 1) + y) * (p_hscan (vp_t pr) + 1) + x) in *.
  assert (K : 0 <= k) by (destruct ok; unfold k; nia).
  assert (D : tg_de (vt_valid s) (vt_tg s) = true).
  { rewrite Hv, Ht. unfold tg_de. cbn [tg_at t_hact t_vact].
    replace (Z.of_nat (occurrences (fun m => vt_xfer (vt_run aw depth [pr] i m) (i m)) 0 n)) with (k + 1) by (unfold k in *; lia).
    replace (k + 1 - 1) with k by lia.
    destruct (point_xy (vp_t pr) f y x Hf ltac:(destruct ok; lia) ltac:(destruct ok; lia)) as [A B]. cbv zeta in A, B. fold k in A, B.
    rewrite A, B. repeat (apply andb_true_iff; split); try reflexivity; try (apply Z.leb_le; lia); apply Z.ltb_lt; lia. }
  split; [exact D|]. intros X. rewrite Hv in D.
  pose proof (reader_init aw pr ltac:(lia)) as HD.
  assert (PX : vi_data (vt_vi s (i n)) = wordaddr aw pr (pixels_before (vp_t pr) (occurrences (fun m => vt_xfer (vt_run aw depth [pr] i m) (i m)) 0 n - 1)))
    by exact (vt_pixel aw depth pr i Haw Hlen ok Hpush dr_init [] 0%nat 0 Hq ltac:(lia) HD n X D).
  rewrite PX. unfold wordaddr, trunc.
  replace (occurrences (fun m => vt_xfer (vt_run aw depth [pr] i m) (i m)) 0 n - 1)%nat with (Z.to_nat k) by (unfold k in *; lia).
  unfold k. rewrite (pixels_before_point (vp_t pr) ok f y x Hf Hy Hx). rewrite Hl.
  replace (f * (p_hres (vp_t pr) * p_vres (vp_t pr)) + y * p_hres (vp_t pr) + x)
    with (y * p_hres (vp_t pr) + x + f * (p_hres (vp_t pr) * p_vres (vp_t pr))) by lia.
  rewrite Z.mod_add by (rewrite <- Hl; lia).
  rewrite (Z.mod_small (y * _ + x)) by nia. f_equal. lia.
Qed.

(** In general it is false: the reader starts the next frame with the old parameters and follows the
    new base in the middle of it.  Two buffers at 100 and 200, two pixels per frame: the second frame
    shows word 0 of the old buffer and word 1 of the new one. *)
Definition ex_t2 : fparam :=
  {| p_hres := 2; p_hs_start := 2; p_hs_end := 3; p_hscan := 3;
     p_vres := 1; p_vs_start := 1; p_vs_end := 1; p_vscan := 1 |}.
Definition ex_buf (b : Z) : vparam := {| vp_t := ex_t2; vp_base := b; vp_length := 2 |}.
Theorem C37_tearing_refuted : exists i n,
  (forall m q, ti_push (i m) = Some q -> q = ex_buf 200) /\
  shown_from 24 3 [ex_buf 100; ex_buf 200] i n = [100; 101; 100; 201].
Proof.
  exists (fun m => {| ti_push := if (m <? 2)%nat then Some (ex_buf 200) else None;
                      ti_mem := (m <? 5)%nat || (11 <? m)%nat; ti_ret := true; ti_ready := true; ti_junk := ex_buf 0 |}), 16%nat.
  split; [intros m q; cbn [ti_push]; destruct (m <? 2)%nat; [intro H; injection H; auto|discriminate]|]. vm_compute. reflexivity.
Qed.

(** * C38 *)
Lemma uf_run_S : forall i n, uf_run i (S n) = uf_step (uf_run i n) (i n).
Proof. reflexivity. Qed.

Theorem C38_counter_exact : forall i a n,
  (a = 0%nat \/ ui_enable (i (a - 1)%nat) = false) ->
  (forall m, (a <= m < a + n)%nat -> ui_enable (i m) = true) ->
  uf_counter (uf_run i (a + n)) = Z.of_nat (occurrences (fun m => negb (ui_valid (i m))) a n) mod 2 ^ 32.
Proof.
  intros i a n H0. induction n as [|n IH]; intros He.
  - rewrite Nat.add_0_r. cbn [occurrences]. destruct H0 as [-> | H0]; [reflexivity|].
    destruct a as [|a]; [reflexivity|]. replace (S a - 1)%nat with a in H0 by lia.
    rewrite uf_run_S. unfold uf_step. cbn [uf_counter]. rewrite H0. reflexivity.
  - rewrite Nat.add_succ_r, uf_run_S. unfold uf_step. cbn [uf_counter occurrences].
    rewrite (He (a + n)%nat) by lia. rewrite IH by (intros; apply He; lia).
    destruct (negb (ui_valid (i (a + n)%nat))); rewrite Nat2Z.inj_add.
    + unfold trunc. rewrite Z.add_mod_idemp_l by lia. reflexivity.
    + rewrite Z.add_0_r. reflexivity.
Qed.

Theorem C38_zero_while_disabled : forall i n, ui_enable (i n) = false -> uf_counter (uf_run i (S n)) = 0.
Proof. intros i n H. rewrite uf_run_S. unfold uf_step. cbn [uf_counter]. rewrite H. reflexivity. Qed.

Theorem C38_status_holds_last_update : forall i u n,
  ui_update (i u) = true -> (forall m, (u < m <= u + n)%nat -> ui_update (i m) = false) ->
  uf_status (uf_run i (S (u + n))) = uf_counter (uf_run i u).
Proof.
  intros i u n Hu. induction n as [|n IH]; intros H.
  - rewrite Nat.add_0_r, uf_run_S. unfold uf_step. cbn [uf_status]. rewrite Hu. reflexivity.
  - rewrite Nat.add_succ_r, uf_run_S. unfold uf_step. cbn [uf_status].
    rewrite (H (S (u + n))) by lia. apply IH. intros; apply H; lia.
Qed.

Theorem C38_status_zero_before_update : forall i n,
  (forall m, (m < n)%nat -> ui_update (i m) = false) -> uf_status (uf_run i n) = 0.
Proof.
  intros i n H. induction n as [|n IH]; [reflexivity|].
  rewrite uf_run_S. unfold uf_step. cbn [uf_status]. rewrite H by lia. apply IH. intros; apply H; lia.
Qed.

(** * Hypotheses are satisfiable *)
Definition ex_dr (m : nat) : dr_in :=
  {| dri_valid := true; dri_base := 1000; dri_length := 3; dri_ready := Nat.even m; dri_vsync := false |}.
Example C34_case : dr_state (dr_run false 24 0 ex_dr 0) = DR_IDLE /\
  Z.of_nat (occurrences (fun m => dri_ready (ex_dr m)) 1 5) = 2 /\
  addresses false 24 0 ex_dr 1 6 = [1000; 1001; 1002].
Proof. vm_compute. auto. Qed.
Definition ex_dg (m : nat) : dr_in :=
  {| dri_valid := true; dri_base := 1000; dri_length := 3; dri_ready := true; dri_vsync := (6 <? m)%nat |}.
Example C34_case_genlock : addresses true 24 1 ex_dg 0 14 = [1001; 1002; 1001; 1002].
Proof. vm_compute. auto. Qed.
Definition ex_si (m : nat) : vs_in :=
  {| si_valid := true; si_p := ex_t2; si_dv := negb (m =? 1)%nat; si_ready := negb (m =? 3)%nat |}.
Example C35_case : displayed false Z.of_nat ex_si 0 16 = [0; 1; 2; 3].
Proof. vm_compute. reflexivity. Qed.
Example C36_case : transferred true Z.of_nat (fun m => {| si_valid := true; si_p := ex_t2; si_dv := true; si_ready := Nat.even m |}) 0 9
  = [0; 1; 2; 3; 4].
Proof. vm_compute. reflexivity. Qed.

(** A parameter FIFO kept filled by software. *)
Definition ex_ti (m : nat) : vt_in :=
  {| ti_push := Some (ex_buf 100); ti_mem := true; ti_ret := Nat.odd m; ti_ready := true; ti_junk := ex_buf 0 |}.
Example C37_hyp : params_ok ex_t2 /\ (forall n q, ti_push (ex_ti n) = Some q -> q = ex_buf 100) /\
  (forall n, vt_q (vt_run 24 8 [ex_buf 100] ex_ti n) <> []).
Proof.
  split; [constructor; cbn; lia|]. split; [intros n q H; cbn [ex_ti ti_push] in H; injection H; auto|].
  induction n as [|n IH]; [discriminate|].
  change (vt_run 24 8 [ex_buf 100] ex_ti (S n)) with (vt_step 24 8 (vt_run 24 8 [ex_buf 100] ex_ti n) (ex_ti n)).
  set (s := vt_run 24 8 [ex_buf 100] ex_ti n) in *. unfold vt_step. cbn [vt_q ex_ti ti_push].
  destruct (vt_q s) as [|a [|b r]]; [congruence| |].
  - cbn [length Nat.ltb Nat.leb]. intro H. apply app_eq_nil in H as [_ H]. discriminate.
  - destruct (vt_valid s && _); cbn [tl]; discriminate.
Qed.
Example C37_case : shown_from 24 8 [ex_buf 100] ex_ti 30 = [100; 101; 100; 101; 100; 101].
Proof. vm_compute. reflexivity. Qed.
Example C38_case : uf_counter (uf_run (fun m => {| ui_enable := (2 <? m)%nat; ui_update := false; ui_valid := Nat.even m |}) 10) = 4.
Proof. vm_compute. reflexivity. Qed.

Print Assumptions C34_frame_read_contiguously.
Print Assumptions C34_prefix.
Print Assumptions C34_repeats.
Print Assumptions C35_displayed_words.
Print Assumptions C36_raw_order_refuted.
Print Assumptions C36_raw_order_partial.
Print Assumptions C37_constant_parameters_partial.
Print Assumptions C37_tearing_refuted.
Print Assumptions C38_counter_exact.
Print Assumptions C38_zero_while_disabled.
Print Assumptions C38_status_holds_last_update.
Print Assumptions C38_status_zero_before_update.
