(** C39, C64, C65, C67: pixel formats and the YCbCr 4:2:2 paths. *)
From Coq Require Import ZArith List Bool Lia Arith.
From Verif Require Import Hdl Trace DelayModel DelayProps PipeModel PipeProofs CscModel CscSpec CscProofs ChromaProofs
  AnalysisModel YccPathModel YccPathProofs.
Import ListNotations.
Open Scope nat_scope.

(** * C39: video output in ycbcr422 mode *)

(** A line of [len] pixels starting in clock [t]: DE rises at [t], stays high for
    [len] clocks in which the core delivers a word each, then at least two blank clocks. *)
Definition out_line (i : nat -> vy_in) (t len : nat) : Prop :=
  (forall m, S m = t -> vyi_de (i m) = false) /\
  (forall k, t <= k < t + len -> vyi_de (i k) = true /\ vyi_valid (i k) = true) /\
  (forall k, t + len <= k < t + len + 2 -> vyi_de (i k) = false).

(** The colour of pixel [n]: its own luma and the chroma of its pair, converted. *)
Definition line_pixel (i : nat -> vy_in) (t n : nat) : rgb :=
  let y k := ((vyi_data (i (t + k)%nat) mod 65536) mod 256)%Z in
  let c k := ((vyi_data (i (t + k)%nat) mod 65536) / 256)%Z in
  spec_rgb 8 {| c_y := y n; c_cb := c (2 * (n / 2)); c_cr := c (2 * (n / 2) + 1) |}.

Lemma slice_lo : forall x, slice 0 8 x = ((x mod 65536) mod 256)%Z.
Proof.
  intros x. unfold slice. rewrite Z.pow_0_r, Z.div_1_r. change 65536%Z with (256 * 256)%Z. change (2 ^ 8)%Z with 256%Z.
  rewrite Z.rem_mul_r by lia. rewrite Z.mul_comm, Z.mod_add by lia. symmetry. apply Z.mod_mod. lia.
Qed.
Lemma slice_hi : forall x, slice 8 8 x = ((x mod 65536) / 256)%Z.
Proof.
  intros x. unfold slice. change (2 ^ 8)%Z with 256%Z. change 65536%Z with (256 * 256)%Z.
  rewrite Z.rem_mul_r by lia. rewrite (Z.mul_comm 256 (_ mod _)), Z.div_add by lia.
  rewrite (Z.div_small (_ mod _)) by (apply Z.mod_pos_bound; lia). reflexivity.
Qed.

Lemma out_line_rise : forall i t len, 0 < len -> out_line i t len ->
  vy_rise i t = true /\ (forall k, t < k < t + len + 2 -> vy_rise i k = false) /\
  (forall k, t <= k < t + len -> vyi_valid (i k) = true).
Proof.
  intros i t len HL (A & B & C). split; [|split].
  - unfold vy_rise. destruct (B t ltac:(lia)) as [-> _]. destruct t as [|m]; [reflexivity|]. rewrite A by reflexivity. reflexivity.
  - intros k Hk. unfold vy_rise. destruct k as [|k]; [lia|].
    destruct (Nat.lt_ge_cases (S k) (t + len)) as [H | H].
    + destruct (B k ltac:(lia)) as [-> _]. apply andb_false_r.
    + rewrite C by lia. reflexivity.
  - intros k Hk. apply B. exact Hk.
Qed.

(** Every pixel of the line reaches the driver, in order, in consecutive clocks; but DE is one clock
    ahead: pixel [n] comes with the DE of clock [t+n+1], so the first DE clock comes
    before pixel 0 and the last pixel comes with DE low. *)
Theorem C39_one_clock_late_partial : forall i t len, 0 < len -> Nat.even len = true -> out_line i t len ->
  (forall n, n < len -> vy_colour (vy_run i (t + n + 7)) = line_pixel i t n) /\
  (forall n, vy_sync (vy_run i (n + 6)) (i (n + 6)) = (vyi_de (i n), vyi_hs (i n), vyi_vs (i n))) /\
  vy_de (vy_run i (t + 6)) (i (t + 6)) = true /\
  pa_source_valid _ _ (vy_yr (vy_run i (t + 6))) (vy_yr_in (vy_run i (t + 6))) = false /\
  vy_de (vy_run i (t + (len - 1) + 7)) (i (t + (len - 1) + 7)) = false.
Proof.
  intros i t len HL HE L. destruct (out_line_rise i t len HL L) as (Hr & Hn & Hv).
  assert (TD : forall n, vy_sync (vy_run i (n + 6)) (i (n + 6)) = (vyi_de (i n), vyi_hs (i n), vyi_vs (i n))).
  { intros n. unfold vy_sync. rewrite vy_td_at.
    apply (proj1 (C61_pure_delay _ 6 _ (fun k => (vyi_de (i k), vyi_hs (i k), vyi_vs (i k))) n)). }
  split; [|split; [exact TD|split; [|split]]].
  - intros n Hlt. replace (t + n + 7) with (t + 3 + n + 4) by lia. rewrite vy_colour_at.
    destruct (vy_us_source i t len Hr Hn Hv HE n Hlt) as [_ ->].
    rewrite yr_fun_spec; [|lia|].
    + unfold line_pixel, vy_pair. cbn [d_y d_c]. rewrite slice_lo, !slice_hi. reflexivity.
    + unfold ycc_ok, vy_pair. cbn [c_y c_cb c_cr d_y d_c]. unfold slice.
      repeat split; apply Z.mod_pos_bound; lia.
  - unfold vy_de. rewrite TD. apply (proj1 (proj2 L)). lia.
  - unfold pa_source_valid, dly_out. rewrite vy_yr_at.
    destruct (pa_state_ready _ _ (yr_step 8) yr_init yr_latency (fun n => vy_yr_in (vy_run i n)) (fun _ => eq_refl) (t + 6)) as [_ E].
    rewrite E. replace (t + 6) with (t + 2 + yr_latency) by (unfold yr_latency; lia). rewrite dly_last by (unfold yr_latency; lia).
    cbn [vy_yr_in pai_valid].
    destruct (vy_us_at i t len Hr Hn Hv 1 ltac:(lia)) as (junk & R & J). rewrite J in R by lia.
    replace (t + 1 + 1) with (t + 2) in R by lia. rewrite (us_rel_valid _ _ _ R).
    rewrite app_nil_r, map_length, seq_length. replace (Nat.min 1 len) with 1 by lia. reflexivity.
  - unfold vy_de. replace (t + (len - 1) + 7) with (t + len + 6) by lia. rewrite TD. apply (proj2 (proj2 L)). lia.
Qed.

(** So the property is false: a line of four pixels. *)
Definition ex_vy (n : nat) : vy_in :=
  {| vyi_valid := true; vyi_de := (3 <=? n) && (n <? 7); vyi_hs := false; vyi_vs := false;
     vyi_data := match n with 3 => 0x80B0%Z | 4 => 0x8010%Z | 5 => 0x80FF%Z | _ => 0x8020%Z end |}.
Lemma ex_vy_line : out_line ex_vy 3 4.
Proof.
  split; [|split].
  - intros m H. injection H as ->. reflexivity.
  - intros k Hk. do 7 (destruct k as [|k]; [try lia; split; reflexivity|]). lia.
  - intros k Hk. do 9 (destruct k as [|k]; [try lia; reflexivity|]). lia.
Qed.
Theorem C39_alignment_refuted : exists i t len n, out_line i t len /\ n < len /\
  vy_de (vy_run i (t + 6 + n)) (i (t + 6 + n)) = true /\
  vy_colour (vy_run i (t + 6 + n)) <> line_pixel i t n.
Proof.
  exists ex_vy, 3, 4, 1. split; [apply ex_vy_line|]. split; [lia|]. split; [reflexivity|]. vm_compute. discriminate.
Qed.

(** * C64: rgb pixel formats of capture and output *)
Definition pixel_ok (r g b : Z) : Prop := (0 <= r < 256 /\ 0 <= g < 256 /\ 0 <= b < 256)%Z.

Theorem C64_red_blue_swapped_partial : forall r g b, pixel_ok r g b ->
  vo_rgb (rgb_pixel r g b) = {| c_r := b; c_g := g; c_b := r |}.
Proof.
  intros r g b (R & G & B). unfold vo_rgb, rgb_pixel, slice. change (2 ^ 8)%Z with 256%Z. change (2 ^ 16)%Z with 65536%Z.
  rewrite Z.pow_0_r, Z.div_1_r. f_equal.
  - replace (b + 256 * g + 65536 * r)%Z with (b + (g + 256 * r) * 256)%Z by lia. rewrite Z.mod_add by lia. apply Z.mod_small. lia.
  - replace (b + 256 * g + 65536 * r)%Z with (b + (g + 256 * r) * 256)%Z by lia. rewrite Z.div_add by lia.
    rewrite (Z.div_small b) by lia. replace (0 + (g + 256 * r))%Z with (g + r * 256)%Z by lia.
    rewrite Z.mod_add by lia. apply Z.mod_small. lia.
  - replace (b + 256 * g + 65536 * r)%Z with (b + 256 * g + r * 65536)%Z by lia. rewrite Z.div_add by lia.
    rewrite (Z.div_small (b + 256 * g)) by lia. apply Z.mod_small. lia.
Qed.

Theorem C64_colours_unchanged_refuted : exists r g b, pixel_ok r g b /\
  vo_rgb (rgb_pixel r g b) <> {| c_r := r; c_g := g; c_b := b |}.
Proof. exists 255%Z, 0%Z, 0%Z. split; [unfold pixel_ok; lia|vm_compute; discriminate]. Qed.

(** * C65: capture in ycbcr422 mode *)

(** A captured line: DE rises at [t], is high for [len] clocks with valid pixels, then nine blank clocks. *)
Definition in_line (i : nat -> fe_in) (t len : nat) : Prop :=
  (forall m, S m = t -> fi_de (i m) = false) /\
  (forall k, t <= k < t + len -> fi_de (i k) = true /\ fi_valid (i k) = true /\ rgb_ok 8 (fi_px (i k))) /\
  (forall k, t + len <= k < t + len + 9 -> fi_de (i k) = false).

Definition ycc_at (i : nat -> fe_in) (k : nat) : ycc := spec_ycc 8 (fi_px (i k)).

(** Pixel [n] of the line as 4:2:2: luma in the low byte, the mean of cb or cr over its pair above it. *)
Definition line_422 (i : nat -> fe_in) (t n : nat) : Z :=
  let a := ycc_at i (t + 2 * (n / 2)) in
  let b := ycc_at i (t + 2 * (n / 2) + 1) in
  (c_y (ycc_at i (t + n)) + 256 * (if Nat.even n then (c_cb a + c_cb b) / 2 else (c_cr a + c_cr b) / 2))%Z.

Theorem C65_captured_pixels : forall F i t len, Nat.even len = true -> in_line i t len ->
  forall n, n < len -> fe_pixel (fe_run F i (t + n + 11)) (i (t + n + 11)) = Some (line_422 i t n).
Proof.
  intros F i t len HE (A & B & C) n Hn.
  assert (Hr : fe_rise i t = true).
  { unfold fe_rise. destruct (B t ltac:(lia)) as [-> _]. destruct t as [|m]; [reflexivity|]. rewrite A by reflexivity. reflexivity. }
  assert (Hno : forall k, t < k < t + len + 9 -> fe_rise i k = false).
  { intros k Hk. unfold fe_rise. destruct k as [|k]; [lia|].
    destruct (Nat.lt_ge_cases (S k) (t + len)) as [H | H].
    + destruct (B k ltac:(lia)) as [-> _]. apply andb_false_r.
    + rewrite C by lia. reflexivity. }
  unfold fe_pixel. rewrite fe_we_at. destruct (B (t + n) ltac:(lia)) as (-> & -> & _). cbn [andb]. f_equal.
  cbn [fe_pk_in pki_px]. unfold fe_encoded, line_422.
  pose proof (odd_half len) as OL. rewrite <- Nat.negb_even, HE in OL. cbn [negb] in OL.
  assert (Q : forall k, k < len -> ry_fun 8 (fi_px (i (t + k))) = ycc_at i (t + k)).
  { intros k Hk. unfold ycc_at. apply ry_fun_spec; [lia|]. apply B. lia. }
  pose proof (odd_half n) as ON.
  destruct (fe_px_at F i t len Hr Hno (n / 2) ltac:(rewrite <- Nat.negb_even in ON; destruct (Nat.odd n), (Nat.even n); cbn [negb] in ON; lia)) as [E1 E2].
  rewrite !Q in E1, E2 by (destruct (Nat.odd n); lia).
  set (m := 2 * (n / 2)) in *. clearbody m. rewrite <- Nat.negb_even in ON.
  replace (t + (m + 1)) with (t + m + 1) in * by lia.
  destruct (Nat.even n); cbn [negb] in ON.
  - replace (t + n) with (t + m) by lia. rewrite E1. reflexivity.
  - replace (t + n) with (t + m + 1) by lia. rewrite E2. reflexivity.
Qed.

(** And there are no other pixels: exactly the clocks eleven after a valid DE clock. *)
Theorem C65_nothing_else : forall F i n,
  (fe_pixel (fe_run F i n) (i n) <> None <-> exists m, n = m + 11 /\ fi_valid (i m) = true /\ fi_de (i m) = true).
Proof.
  intros F i n. unfold fe_pixel. split.
  - intros H. destruct (Nat.lt_ge_cases n 11) as [L | L].
    + rewrite fe_we_early in H by exact L. congruence.
    + exists (n - 11). split; [lia|]. replace n with (n - 11 + 11) in H by lia. rewrite fe_we_at in H.
      destruct (fi_valid (i (n - 11))), (fi_de (i (n - 11))); cbn in H; try congruence. split; reflexivity.
  - intros (m & -> & V & D). rewrite fe_we_at, V, D. discriminate.
Qed.

(** These are the inputs of the word packer of C21-C22. *)
Theorem C65_packer : forall F i n,
  fe_pk (fe_run F i n) = pk_run F (fun m => fe_pk_in (fe_run F i m) (i m)) n.
Proof. exact fe_pk_at. Qed.

(** * C67: frame boundaries *)

(** Rising edges of vsync at the input up to and including a clock, and start-of-frame pulses
    of the packer up to and including a clock. *)
Definition vs_rise (i : nat -> fe_in) (n : nat) : bool :=
  fi_vsync (i n) && negb (match n with 0 => false | S m => fi_vsync (i m) end).
Definition frame_in (i : nat -> fe_in) (n : nat) : nat := occurrences (vs_rise i) 0 (n + 1).
Definition frame_packed (F : nat) (i : nat -> fe_in) (n : nat) : nat :=
  occurrences (fun m => pk_new_frame (fe_pk (fe_run F i m)) (fe_pk_in (fe_run F i m) (i m))) 0 (n + 1).

Lemma frame_packed_in : forall F i n, frame_packed F i n = frame_in i n.
Proof.
  intros F i n. apply occurrences_ext. intros m _. unfold pk_new_frame, vs_rise. cbn [fe_pk_in pki_vsync].
  f_equal. f_equal. destruct m; reflexivity.
Qed.

Lemma occurrences_none : forall p a n k, (forall m, a + n <= m < a + n + k -> p m = false) ->
  occurrences p a (n + k) = occurrences p a n.
Proof.
  intros p a n. induction k as [|k IH]; intros H; [rewrite Nat.add_0_r; reflexivity|].
  rewrite Nat.add_succ_r. cbn [occurrences]. rewrite IH by (intros m Hm; apply H; lia).
  rewrite (H (a + (n + k))) by lia. apply Nat.add_0_r.
Qed.

(** A pixel is counted in its own frame unless vsync rises in the eleven clocks after it. *)
Theorem C67_frame_boundary_partial : forall F i m, fi_valid (i m) = true -> fi_de (i m) = true ->
  (forall k, m < k <= m + 11 -> vs_rise i k = false) ->
  fe_pixel (fe_run F i (m + 11)) (i (m + 11)) <> None /\
  pk_new_frame (fe_pk (fe_run F i (m + 11))) (fe_pk_in (fe_run F i (m + 11)) (i (m + 11))) = false /\
  frame_packed F i (m + 11) = frame_in i m.
Proof.
  intros F i m V D N. split; [|split].
  - apply C65_nothing_else. exists m. auto.
  - unfold pk_new_frame. cbn [fe_pk_in pki_vsync]. pose proof (N (m + 11) ltac:(lia)) as H. unfold vs_rise in H.
    replace (m + 11) with (S (m + 10)) in * by lia. exact H.
  - rewrite frame_packed_in. unfold frame_in. replace (m + 11 + 1) with (m + 1 + 11) by lia.
    apply occurrences_none. intros k Hk. apply N. lia.
Qed.

(** Otherwise it is lost or counted in the next one: the start of frame is not delayed with the pixels. *)
Definition ex_vs (n : nat) : fe_in :=
  {| fi_valid := true; fi_vsync := (10 <=? n); fi_de := (2 <=? n) && (n <? 6); fi_px := {| c_r := 200; c_g := 10; c_b := 90 |}%Z |}.
Theorem C67_frame_boundary_refuted : exists F i m,
  fi_valid (i m) = true /\ fi_de (i m) = true /\ fi_vsync (i m) = false /\
  fe_pixel (fe_run F i (m + 11)) (i (m + 11)) <> None /\ frame_packed F i (m + 11) <> frame_in i m.
Proof. exists 2, ex_vs, 3. vm_compute. repeat split; discriminate. Qed.

Definition ex_fe (n : nat) : fe_in :=
  {| fi_valid := true; fi_vsync := false; fi_de := (2 <=? n) && (n <? 6); fi_px := {| c_r := 200; c_g := 10 * Z.of_nat n; c_b := 90 |}%Z |}.
Example C65_case : in_line ex_fe 2 4 /\ fe_pixel (fe_run 2 ex_fe (2 + 1 + 11)) (ex_fe 14) = Some (80 + 256 * 218)%Z.
Proof.
  split; [|vm_compute; reflexivity]. split; [|split].
  - intros m H. injection H as ->. reflexivity.
  - intros k Hk. do 6 (destruct k as [|k]; [first [lia | split; [reflexivity|split; [reflexivity|unfold rgb_ok; cbn; lia]]]|]). lia.
  - intros k Hk. do 15 (destruct k as [|k]; [try lia; reflexivity|]). lia.
Qed.

Print Assumptions C39_one_clock_late_partial.
Print Assumptions C39_alignment_refuted.
Print Assumptions C64_red_blue_swapped_partial.
Print Assumptions C64_colours_unchanged_refuted.
Print Assumptions C65_captured_pixels.
Print Assumptions C65_nothing_else.
Print Assumptions C65_packer.
Print Assumptions C67_frame_boundary_partial.
Print Assumptions C67_frame_boundary_refuted.
