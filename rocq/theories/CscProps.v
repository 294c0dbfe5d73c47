(** C40-C46: colour space conversion and chroma resampling. *)
From Coq Require Import ZArith List Bool Lia Arith.
From Verif Require Import Hdl Trace PipeModel PipeProofs CscModel CscSpec CscProofs ChromaProofs.
Import ListNotations.
Open Scope Z_scope.

(** * C40: pure pipelined converters, every valid/ready schedule *)

(** Sequences accepted at the two ends of a converter in the first [n] clocks. *)
Definition ry_inputs w i n := pa_inputs ry_st rgb (ry_step w) ry_init ry_latency i n.
Definition ry_outputs w i n := pa_outputs ry_st rgb ycc (ry_step w) ry_out ry_init ry_latency i n.
Definition yr_inputs w i n := pa_inputs yr_st ycc (yr_step w) yr_init yr_latency i n.
Definition yr_outputs w i n := pa_outputs yr_st ycc rgb (yr_step w) yr_out yr_init yr_latency i n.

(** The accepted outputs are the conversions of the accepted inputs, in order,
    and at most [latency] pixels are inside.  [spec_ycc]/[spec_rgb] (CscSpec) are the conversions of
    one pixel in exact integer arithmetic. *)
Lemma pa_inputs_all : forall St In dp s0 L (i : nat -> pa_in In) (P : In -> Prop) n,
  (forall t, P (pai_data _ (i t))) -> Forall P (pa_inputs St In dp s0 L i n).
Proof.
  intros St In dp s0 L i P n H. unfold pa_inputs. induction n as [|n IH]; [constructor|].
  cbn [collect]. apply Forall_app. split; [exact IH|]. unfold pa_in_event at 1.
  destruct (_ && _); [|constructor]. constructor; [apply H|constructor].
Qed.
Lemma map_eq_on : forall (A B : Type) (f g : A -> B) (P : A -> Prop) (l : list A), (forall x, P x -> f x = g x) -> Forall P l -> map f l = map g l.
Proof. intros A B f g P l H F. induction F as [|x l Hx F IH]; [reflexivity|]. cbn [map]. rewrite IH, H by exact Hx. reflexivity. Qed.
Lemma tail_of_inputs : forall (A B : Type) (f : A -> B) (l : list A) o r, map f l = o ++ map f r ->
  map f (skipn (length o) l) = map f r.
Proof.
  intros A B f l o r H. rewrite <- skipn_map, H, skipn_app, skipn_all, Nat.sub_diag. reflexivity.
Qed.

Theorem C40_rgb2ycbcr_stream_partial : forall w i n, 4 <= w -> (forall t, rgb_ok w (pai_data _ (i t))) -> exists rest,
  map (spec_ycc w) (ry_inputs w i n) = ry_outputs w i n ++ map (spec_ycc w) rest /\ (length rest <= 8)%nat.
Proof.
  intros w i n Hw Hi.
  destruct (pa_stream ry_st rgb ycc (ry_step w) ry_out ry_init ry_latency ltac:(unfold ry_latency; lia) i (ry_fun w)
              ltac:(intros s x ys H; apply ry_pure; exact H) n) as (rest & E & L).
  pose proof (pa_inputs_all _ _ (ry_step w) ry_init ry_latency i (rgb_ok w) n Hi) as F.
  assert (Q : forall l, Forall (rgb_ok w) l -> map (ry_fun w) l = map (spec_ycc w) l)
    by (intros l; apply map_eq_on; intros; apply ry_fun_spec; assumption).
  pose proof (tail_of_inputs _ _ _ _ _ _ E) as T. rewrite <- T in E. apply (f_equal (@length _)) in T. rewrite !map_length in T.
  assert (F2 : Forall (rgb_ok w) (skipn (length (ry_outputs w i n)) (ry_inputs w i n))).
  { rewrite <- (firstn_skipn (length (ry_outputs w i n)) (ry_inputs w i n)) in F at 1. apply Forall_app in F. apply F. }
  exists (skipn (length (ry_outputs w i n)) (ry_inputs w i n)). split; [|unfold ry_latency in L; etransitivity; [|exact L]; apply Nat.eq_le_incl; exact T].
  rewrite <- (Q _ F2). rewrite <- Q by exact F. exact E.
Qed.
Theorem C40_ycbcr2rgb_stream_partial : forall w i n, 4 <= w -> (forall t, ycc_ok w (pai_data _ (i t))) -> exists rest,
  map (spec_rgb w) (yr_inputs w i n) = yr_outputs w i n ++ map (spec_rgb w) rest /\ (length rest <= 4)%nat.
Proof.
  intros w i n Hw Hi.
  destruct (pa_stream yr_st ycc rgb (yr_step w) yr_out yr_init yr_latency ltac:(unfold yr_latency; lia) i (yr_fun w)
              ltac:(intros s x ys H; apply yr_pure; exact H) n) as (rest & E & L).
  pose proof (pa_inputs_all _ _ (yr_step w) yr_init yr_latency i (ycc_ok w) n Hi) as F.
  assert (Q : forall l, Forall (ycc_ok w) l -> map (yr_fun w) l = map (spec_rgb w) l)
    by (intros l; apply map_eq_on; intros; apply yr_fun_spec; assumption).
  pose proof (tail_of_inputs _ _ _ _ _ _ E) as T. rewrite <- T in E. apply (f_equal (@length _)) in T. rewrite !map_length in T.
  assert (F2 : Forall (ycc_ok w) (skipn (length (yr_outputs w i n)) (yr_inputs w i n))).
  { rewrite <- (firstn_skipn (length (yr_outputs w i n)) (yr_inputs w i n)) in F at 1. apply Forall_app in F. apply F. }
  exists (skipn (length (yr_outputs w i n)) (yr_inputs w i n)). split; [|unfold yr_latency in L; etransitivity; [|exact L]; apply Nat.eq_le_incl; exact T].
  rewrite <- (Q _ F2). rewrite <- Q by exact F. exact E.
Qed.

(** Any pipelined converter: while the output is valid and not accepted nothing changes. *)
Theorem C40_stable_while_stalled_partial : forall St In dp s0 L (i : nat -> pa_in In) n,
  pa_source_valid St In (pa_run St In dp s0 L i n) (i n) = true -> pai_ready _ (i n) = false ->
  pa_run St In dp s0 L i (S n) = pa_run St In dp s0 L i n.
Proof. exact pa_stable. Qed.

(** With a consumer that is always ready: fixed latencies, gaps preserved. *)
Theorem C40_latency_partial : forall w n, 4 <= w ->
  (forall i, (forall m, pai_ready _ (i m) = true) -> (forall t, rgb_ok w (pai_data _ (i t))) ->
   pa_out_event ry_st rgb ycc ry_out (pa_run _ _ (ry_step w) ry_init 8 i (n + 8)) (i (n + 8)%nat) =
   if pai_valid _ (i n) then Some (spec_ycc w (pai_data _ (i n))) else None) /\
  (forall i, (forall m, pai_ready _ (i m) = true) -> (forall t, ycc_ok w (pai_data _ (i t))) ->
   pa_out_event yr_st ycc rgb yr_out (pa_run _ _ (yr_step w) yr_init 4 i (n + 4)) (i (n + 4)%nat) =
   if pai_valid _ (i n) then Some (spec_rgb w (pai_data _ (i n))) else None).
Proof.
  intros w n Hw. split; intros i R O.
  - rewrite <- ry_fun_spec by (assumption || apply O).
    apply (pa_latency _ _ _ _ _ _ 8%nat i (ry_fun w) n ltac:(lia)); [intros; apply ry_pure; assumption|exact R].
  - rewrite <- yr_fun_spec by (assumption || apply O).
    apply (pa_latency _ _ _ _ _ _ 4%nat i (yr_fun w) n ltac:(lia)); [intros; apply yr_pure; assumption|exact R].
Qed.

(** * C41 / C43 *)
Lemma ry_formula : forall w p, 4 <= w -> rgb_ok w p -> ry_fun w p = spec_ycc w p.
Proof. intros w p Hw ok. apply ry_fun_spec; assumption. Qed.

(** At the output of the datapath: eight (four) enabled clocks after a pixel entered,
    from any state of the registers and whatever follows. *)
Theorem C41_datapath : forall w s p ps, 4 <= w -> rgb_ok w p -> length ps = 7%nat ->
  ry_out (fold_left (ry_step w) (p :: ps) s) = spec_ycc w p.
Proof. intros w s p ps Hw ok L. rewrite ry_pure by (rewrite L; reflexivity). apply ry_fun_spec; assumption. Qed.

Lemma yr_formula : forall w q, 4 <= w -> ycc_ok w q -> yr_fun w q = spec_rgb w q.
Proof. intros w q Hw ok. apply yr_fun_spec; assumption. Qed.
Theorem C43_datapath : forall w s q qs, 4 <= w -> ycc_ok w q -> length qs = 3%nat ->
  yr_out (fold_left (yr_step w) (q :: qs) s) = spec_rgb w q.
Proof. intros w s p ps Hw ok L. rewrite yr_pure by (rewrite L; reflexivity). apply yr_fun_spec; assumption. Qed.

(** Every register of the pipeline holds the exact (unwrapped) value of its stage. *)
Theorem C41_no_overflow : forall w s p p1 p2 p3 p4 p5 p6, 4 <= w -> rgb_ok w p ->
  let run l := fold_left (ry_step w) l s in
  ry_rg (run [p]) = c_r p - c_g p /\ ry_bg (run [p]) = c_b p - c_g p /\
  ry_carg (run [p; p1]) = 46 * (c_r p - c_g p) /\ ry_cbbg (run [p; p1]) = 15 * (c_b p - c_g p) /\
  ry_sum (run [p; p1; p2]) = 46 * (c_r p - c_g p) + 15 * (c_b p - c_g p) /\
  ry_yraw (run [p; p1; p2; p3]) = luma p /\
  ry_by (run [p; p1; p2; p3; p4]) = c_b p - luma p /\ ry_ry (run [p; p1; p2; p3; p4]) = c_r p - luma p /\
  ry_ccm (run [p; p1; p2; p3; p4; p5]) = 141 * (c_b p - luma p) /\
  ry_cdm (run [p; p1; p2; p3; p4; p5]) = 166 * (c_r p - luma p) /\
  ry_y (run [p; p1; p2; p3; p4; p5; p6]) = luma p + 2 ^ w / 16 /\
  ry_cb (run [p; p1; p2; p3; p4; p5; p6]) = 141 * (c_b p - luma p) / 256 + 2 ^ w / 2 /\
  ry_cr (run [p; p1; p2; p3; p4; p5; p6]) = 166 * (c_r p - luma p) / 256 + 2 ^ w / 2.
Proof.
  intros w s p p1 p2 p3 p4 p5 p6 Hw ok run.
  pose proof (luma_range w p Hw ok) as LR. destruct ok as (R & G & B). set (W := 2 ^ w) in *.
  assert (W16 : 16 <= W) by (unfold W; change 16 with (2 ^ 4); apply Z.pow_le_mono_r; lia).
  unfold run. cbn [fold_left]. clear run.
  remember (ry_step w s p) as s1 eqn:H1.
  assert (Erg : ry_rg s1 = c_r p - c_g p) by (rewrite H1; apply (strunc_small w 1); fold W; change (2 ^ (1 - 1)) with 1; lia).
  assert (Ebg : ry_bg s1 = c_b p - c_g p) by (rewrite H1; apply (strunc_small w 1); fold W; change (2 ^ (1 - 1)) with 1; lia).
  assert (D1 : ry_d1 s1 = p) by (rewrite H1; reflexivity). clear H1.
  remember (ry_step w s1 p1) as s2 eqn:H1.
  assert (D2 : ry_d2 s2 = p) by (rewrite H1; exact D1).
  assert (Eca : ry_carg s2 = 46 * (c_r p - c_g p)).
  { rewrite H1. cbn [ry_step ry_carg]. rewrite Erg. unfold k_ca. replace (w + 8 + 1) with (w + 9) by lia.
    rewrite (strunc_small w 9) by (fold W; change (2 ^ (9 - 1)) with 256; lia). lia. }
  assert (Ecb : ry_cbbg s2 = 15 * (c_b p - c_g p)).
  { rewrite H1. cbn [ry_step ry_cbbg]. rewrite Ebg. unfold k_cb. replace (w + 8 + 1) with (w + 9) by lia.
    rewrite (strunc_small w 9) by (fold W; change (2 ^ (9 - 1)) with 256; lia). lia. }
  clear H1. remember (ry_step w s2 p2) as s3 eqn:H1.
  assert (D3 : ry_d3 s3 = p) by (rewrite H1; exact D2).
  assert (E3 : ry_sum s3 = 46 * (c_r p - c_g p) + 15 * (c_b p - c_g p)).
  { rewrite H1. cbn [ry_step ry_sum]. rewrite Eca, Ecb. replace (w + 8 + 9) with (w + 17) by lia.
    apply (strunc_small w 17); fold W; change (2 ^ (17 - 1)) with 65536; lia. }
  clear H1. remember (ry_step w s3 p3) as s4 eqn:H1.
  assert (D4 : ry_d4 s4 = p) by (rewrite H1; exact D3).
  assert (E4 : ry_yraw s4 = luma p).
  { rewrite H1. cbn [ry_step ry_yraw]. rewrite E3, D3. unfold slice. rewrite strunc_mod by lia. change (2 ^ 8) with 256.
    fold (luma p). apply (strunc_small w 3); fold W; change (2 ^ (3 - 1)) with 4; lia. }
  clear H1. remember (ry_step w s4 p4) as s5 eqn:H1.
  assert (E5b : ry_by s5 = c_b p - luma p).
  { rewrite H1. cbn [ry_step ry_by]. rewrite E4, D4. apply (strunc_small w 4); fold W; change (2 ^ (4 - 1)) with 8; lia. }
  assert (E5r : ry_ry s5 = c_r p - luma p).
  { rewrite H1. cbn [ry_step ry_ry]. rewrite E4, D4. apply (strunc_small w 4); fold W; change (2 ^ (4 - 1)) with 8; lia. }
  assert (E5y : ry_yraw0 s5 = luma p).
  { rewrite H1. cbn [ry_step ry_yraw0]. rewrite E4. apply (strunc_small w 3); fold W; change (2 ^ (3 - 1)) with 4; lia. }
  clear H1. remember (ry_step w s5 p5) as s6 eqn:H1.
  assert (E6c : ry_ccm s6 = 141 * (c_b p - luma p)).
  { rewrite H1. cbn [ry_step ry_ccm]. rewrite E5b. unfold k_cc. replace (w + 8 + 4) with (w + 12) by lia.
    rewrite (strunc_small w 12) by (fold W; change (2 ^ (12 - 1)) with 2048; lia). lia. }
  assert (E6d : ry_cdm s6 = 166 * (c_r p - luma p)).
  { rewrite H1. cbn [ry_step ry_cdm]. rewrite E5r. unfold k_cd. replace (w + 8 + 4) with (w + 12) by lia.
    rewrite (strunc_small w 12) by (fold W; change (2 ^ (12 - 1)) with 2048; lia). lia. }
  assert (E6y : ry_yraw1 s6 = luma p).
  { rewrite H1. cbn [ry_step ry_yraw1]. rewrite E5y. apply (strunc_small w 3); fold W; change (2 ^ (3 - 1)) with 4; lia. }
  clear H1. remember (ry_step w s6 p6) as s7 eqn:H1.
  assert (H2 : 0 <= W / 2 <= W) by (split; [apply Z.div_pos; lia|apply Z.div_le_upper_bound; lia]).
  assert (H16 : 0 <= W / 16 <= W) by (split; [apply Z.div_pos; lia|apply Z.div_le_upper_bound; lia]).
  assert (E7y : ry_y s7 = luma p + W / 16).
  { rewrite H1. cbn [ry_step ry_y]. rewrite E6y. unfold yoffset. rewrite <- pow_m4 by lia. fold W.
    apply (strunc_small w 3); fold W; change (2 ^ (3 - 1)) with 4; lia. }
  assert (E7b : ry_cb s7 = 141 * (c_b p - luma p) / 256 + W / 2).
  { rewrite H1. cbn [ry_step ry_cb]. rewrite E6c. unfold coffset, slice. rewrite <- pow_m1 by lia. fold W.
    rewrite strunc_mod by lia. change (2 ^ 8) with 256.
    pose proof (div_bounds (141 * (c_b p - luma p)) 256 _ ltac:(lia) ltac:(lia) eq_refl).
    apply (strunc_small w 4); fold W; change (2 ^ (4 - 1)) with 8; lia. }
  assert (E7r : ry_cr s7 = 166 * (c_r p - luma p) / 256 + W / 2).
  { rewrite H1. cbn [ry_step ry_cr]. rewrite E6d. unfold coffset, slice. rewrite <- pow_m1 by lia. fold W.
    rewrite strunc_mod by lia. change (2 ^ 8) with 256.
    pose proof (div_bounds (166 * (c_r p - luma p)) 256 _ ltac:(lia) ltac:(lia) eq_refl).
    apply (strunc_small w 4); fold W; change (2 ^ (4 - 1)) with 8; lia. }
  repeat (split; [assumption|]). assumption.
Qed.

Theorem C43_no_overflow : forall w s q q1 q2, 4 <= w -> ycc_ok w q ->
  let y := c_y q - 2 ^ w / 16 in let cb := c_cb q - 2 ^ w / 2 in let cr := c_cr q - 2 ^ w / 2 in
  let run l := fold_left (yr_step w) l s in
  yr_cbm (run [q]) = cb /\ yr_crm (run [q]) = cr /\
  yr_ym (run [q; q1]) = y /\ yr_cra (run [q; q1]) = 98 * cr /\ yr_cbb (run [q; q1]) = - 9 * cb /\
  yr_crc (run [q; q1]) = - 23 * cr /\ yr_cbd (run [q; q1]) = 116 * cb /\
  yr_r (run [q; q1; q2]) = y + 98 * cr / 64 /\ yr_g (run [q; q1; q2]) = y + -9 * cb / 64 + -23 * cr / 64 /\
  yr_b (run [q; q1; q2]) = y + 116 * cb / 64.
Proof.
  intros w s q q1 q2 Hw ok y cb cr run. destruct ok as (Y & Cb & Cr). set (W := 2 ^ w) in *.
  assert (W16 : 16 <= W) by (unfold W; change 16 with (2 ^ 4); apply Z.pow_le_mono_r; lia).
  assert (H2 : 0 <= W / 2 <= W) by (split; [apply Z.div_pos; lia|apply Z.div_le_upper_bound; lia]).
  assert (H16 : 0 <= W / 16 <= W) by (split; [apply Z.div_pos; lia|apply Z.div_le_upper_bound; lia]).
  assert (By : - W <= y < W) by (unfold y; lia). assert (Bb : - W <= cb < W) by (unfold cb; lia).
  assert (Br : - W <= cr < W) by (unfold cr; lia).
  unfold run. cbn [fold_left]. clear run.
  remember (yr_step w s q) as s1 eqn:H1.
  assert (A1 : yr_cbm s1 = cb).
  { rewrite H1. cbn [yr_step yr_cbm]. unfold coffset. rewrite <- pow_m1 by lia. fold W. fold cb.
    apply (strunc_small w 1); fold W; change (2 ^ (1 - 1)) with 1; lia. }
  assert (A2 : yr_crm s1 = cr).
  { rewrite H1. cbn [yr_step yr_crm]. unfold coffset. rewrite <- pow_m1 by lia. fold W. fold cr.
    apply (strunc_small w 1); fold W; change (2 ^ (1 - 1)) with 1; lia. }
  assert (D1 : yr_d1 s1 = q) by (rewrite H1; reflexivity). clear H1.
  remember (yr_step w s1 q1) as s2 eqn:H1.
  assert (B1 : yr_ym s2 = y).
  { rewrite H1. cbn [yr_step yr_ym]. rewrite D1. unfold yoffset. rewrite <- pow_m4 by lia. fold W. fold y.
    apply (strunc_small w 1); fold W; change (2 ^ (1 - 1)) with 1; lia. }
  assert (M : forall k x, -512 <= k <= 512 -> - W <= x < W -> strunc (w + 8 + 4) (x * k) = k * x).
  { intros k x Hk Hx. replace (w + 8 + 4) with (w + 12) by lia. rewrite (Z.mul_comm x).
    apply (strunc_small w 12); [lia|lia|]. fold W. change (2 ^ (12 - 1)) with 2048. nia. }
  assert (B2 : yr_cra s2 = 98 * cr) by (rewrite H1; cbn [yr_step yr_cra]; rewrite A2; apply M; unfold k_a; lia).
  assert (B3 : yr_cbb s2 = - 9 * cb) by (rewrite H1; cbn [yr_step yr_cbb]; rewrite A1; apply M; unfold k_b; lia).
  assert (B4 : yr_crc s2 = - 23 * cr) by (rewrite H1; cbn [yr_step yr_crc]; rewrite A2; apply M; unfold k_c; lia).
  assert (B5 : yr_cbd s2 = 116 * cb) by (rewrite H1; cbn [yr_step yr_cbd]; rewrite A1; apply M; unfold k_d; lia).
  clear H1. remember (yr_step w s2 q2) as s3 eqn:H1.
  assert (EM : forall a b, strunc (w + 4) (a + b mod 2 ^ (w + 6)) = strunc (w + 4) (a + b)).
  { intros a b. rewrite (Z.add_comm a), (Z.add_comm a). apply strunc_mod. lia. }
  pose proof (div_bounds (98 * cr) 64 _ ltac:(lia) ltac:(lia) eq_refl).
  pose proof (div_bounds (116 * cb) 64 _ ltac:(lia) ltac:(lia) eq_refl).
  pose proof (div_bounds (-9 * cb) 64 _ ltac:(lia) ltac:(lia) eq_refl).
  pose proof (div_bounds (-23 * cr) 64 _ ltac:(lia) ltac:(lia) eq_refl).
  assert (C1 : yr_r s3 = y + 98 * cr / 64).
  { rewrite H1. cbn [yr_step yr_r]. rewrite B1, B2. unfold slice. change (2 ^ 6) with 64. rewrite EM.
    apply (strunc_small w 4); fold W; change (2 ^ (4 - 1)) with 8; lia. }
  assert (C2 : yr_b s3 = y + 116 * cb / 64).
  { rewrite H1. cbn [yr_step yr_b]. rewrite B1, B5. unfold slice. change (2 ^ 6) with 64. rewrite EM.
    apply (strunc_small w 4); fold W; change (2 ^ (4 - 1)) with 8; lia. }
  assert (C3 : yr_g s3 = y + -9 * cb / 64 + -23 * cr / 64).
  { rewrite H1. cbn [yr_step yr_g]. rewrite B1, B3, B4. unfold slice. change (2 ^ 6) with 64. rewrite EM.
    replace (y + (-9 * cb / 64) mod 2 ^ (w + 6) + -23 * cr / 64) with (y + -23 * cr / 64 + (-9 * cb / 64) mod 2 ^ (w + 6)) by lia.
    rewrite EM. replace (y + -23 * cr / 64 + -9 * cb / 64) with (y + -9 * cb / 64 + -23 * cr / 64) by lia.
    apply (strunc_small w 4); fold W; change (2 ^ (4 - 1)) with 8; lia. }
  repeat (split; [assumption|]). assumption.
Qed.

(** * C42: distance to the exact conversion with the documented coefficients
    0.1819, 0.0618, 0.5512, 0.6495.  Exact values are scaled by 10^4 and 10^8 to stay integral;
    the exact luma (without offset) is [exact_l p / 10^4]. *)
Definition exact_l (p : rgb) : Z := 1819 * (c_r p - c_g p) + 618 * (c_b p - c_g p) + 10000 * c_g p.
Definition exact_y (p : rgb) : Z := clamp 0 (255 * 10 ^ 4) (exact_l p + 16 * 10 ^ 4).
Definition exact_cb (p : rgb) : Z := clamp 0 (255 * 10 ^ 8) (5512 * (10000 * c_b p - exact_l p) + 128 * 10 ^ 8).
Definition exact_cr (p : rgb) : Z := clamp 0 (255 * 10 ^ 8) (6495 * (10000 * c_r p - exact_l p) + 128 * 10 ^ 8).

Theorem C42_accuracy : forall s p ps, rgb_ok 8 p -> length ps = 7%nat ->
  let q := ry_out (fold_left (ry_step 8) (p :: ps) s) in
  Z.abs (c_y q * 10 ^ 4 - exact_y p) < 24 * 10 ^ 3 /\      (* 2.4 LSB *)
  Z.abs (c_cb q * 10 ^ 8 - exact_cb p) < 24 * 10 ^ 7 /\    (* 2.4 LSB *)
  Z.abs (c_cr q * 10 ^ 8 - exact_cr p) < 28 * 10 ^ 7.      (* 2.8 LSB *)
Proof.
  intros s p ps ok L. cbv zeta. rewrite C41_datapath by (lia || assumption).
  destruct ok as (R & G & B). change (2 ^ 8) with 256 in R, G, B.
  unfold spec_ycc, exact_y, exact_cb, exact_cr, exact_l. cbn [c_y c_cb c_cr].
  change (2 ^ 8 / 16) with 16. change (2 ^ 8 / 2) with 128. change (2 ^ 8 - 1) with 255.
  set (cb := 141 * (c_b p - luma p) / 256). set (cr := 166 * (c_r p - luma p) / 256).
  pose proof (div_bounds _ 256 cb ltac:(lia) ltac:(lia) eq_refl) as D1.
  pose proof (div_bounds _ 256 cr ltac:(lia) ltac:(lia) eq_refl) as D2. clearbody cb cr.
  unfold luma in *. set (l := (46 * (c_r p - c_g p) + 15 * (c_b p - c_g p)) / 256) in *.
  pose proof (div_bounds _ 256 l ltac:(lia) ltac:(lia) eq_refl) as D3. clearbody l.
  change (10 ^ 4) with 10000. change (10 ^ 8) with 100000000. change (10 ^ 3) with 1000. change (10 ^ 7) with 10000000.
  unfold clamp. split; [|split]; lia.
Qed.

(** * C44: round trip.  The bounds are the exact worst cases.  Colours whose luma or chroma
    saturates lose up to 17 steps; the others at most 3. *)
Definition round_trip (p : rgb) : rgb := yr_fun 8 (ry_fun 8 p).

Definition unsaturated (p : rgb) : Prop :=
  luma p + 16 <= 255 /\ 0 <= 141 * (c_b p - luma p) / 256 + 128 <= 255 /\
  0 <= 166 * (c_r p - luma p) / 256 + 128 <= 255.

Lemma spec_ycc_ok : forall w p, 0 <= w -> ycc_ok w (spec_ycc w p).
Proof.
  intros w p Hw. assert (P : 0 < 2 ^ w) by (apply Z.pow_pos_nonneg; lia).
  unfold ycc_ok, spec_ycc, clamp. cbn [c_y c_cb c_cr]. lia.
Qed.

Lemma round_trip_bounds : forall p, rgb_ok 8 p ->
  (-17 <= c_r (round_trip p) - c_r p <= 13 /\ -16 <= c_g (round_trip p) - c_g p <= 3 /\
   -17 <= c_b (round_trip p) - c_b p <= 7) /\
  (unsaturated p -> -3 <= c_r (round_trip p) - c_r p <= 1 /\ -3 <= c_g (round_trip p) - c_g p <= 0 /\
   -3 <= c_b (round_trip p) - c_b p <= 0).
Proof.
  intros p ok. unfold round_trip. rewrite ry_formula by (lia || exact ok).
  rewrite yr_formula by (lia || (apply spec_ycc_ok; lia)).
  destruct ok as (R & G & B). change (2 ^ 8) with 256 in R, G, B.
  unfold spec_rgb, spec_ycc, unsaturated. cbn [c_y c_cb c_cr c_r c_g c_b].
  change (2 ^ 8 / 16) with 16. change (2 ^ 8 / 2) with 128. change (2 ^ 8 - 1) with 255.
  set (cb := 141 * (c_b p - luma p) / 256). set (cr := 166 * (c_r p - luma p) / 256).
  pose proof (div_bounds _ 256 cb ltac:(lia) ltac:(lia) eq_refl) as D1.
  pose proof (div_bounds _ 256 cr ltac:(lia) ltac:(lia) eq_refl) as D2. clearbody cb cr.
  unfold luma in *. set (l := (46 * (c_r p - c_g p) + 15 * (c_b p - c_g p)) / 256) in *.
  pose proof (div_bounds _ 256 l ltac:(lia) ltac:(lia) eq_refl) as D3. clearbody l.
  set (y := clamp 0 255 (l + c_g p + 16)). set (cbs := clamp 0 255 (cb + 128) - 128). set (crs := clamp 0 255 (cr + 128) - 128).
  assert (Y : (y = l + c_g p + 16 /\ l + c_g p <= 239) \/ (y = 255 /\ l + c_g p > 239)) by (unfold y, clamp; lia).
  assert (CB : (cbs = cb /\ -128 <= cb <= 127) \/ (cbs = 127 /\ cb > 127) \/ (cbs = -128 /\ cb < -128)) by (unfold cbs, clamp; lia).
  assert (CR : (crs = cr /\ -128 <= cr <= 127) \/ (crs = 127 /\ cr > 127) \/ (crs = -128 /\ cr < -128)) by (unfold crs, clamp; lia).
  clearbody y cbs crs.
  set (c1 := 98 * crs / 64). set (c2 := 116 * cbs / 64). set (c3 := -9 * cbs / 64). set (c4 := -23 * crs / 64).
  pose proof (div_bounds _ 64 c1 ltac:(lia) ltac:(lia) eq_refl) as E1.
  pose proof (div_bounds _ 64 c2 ltac:(lia) ltac:(lia) eq_refl) as E2.
  pose proof (div_bounds _ 64 c3 ltac:(lia) ltac:(lia) eq_refl) as E3.
  pose proof (div_bounds _ 64 c4 ltac:(lia) ltac:(lia) eq_refl) as E4. clearbody c1 c2 c3 c4.
  assert (CL : forall lo hi x v, lo <= 0 -> 0 <= hi -> 0 <= v < 256 -> lo <= x - v <= hi -> lo <= clamp 0 255 x - v <= hi)
    by (intros; unfold clamp; lia).
  split; [|intros (U1 & U2 & U3)]; (split; [|split]); apply CL; try lia.
Qed.

(** One pixel through both datapaths, whatever their registers hold and whatever follows. *)
Lemma through_both : forall s p ps s' qs, rgb_ok 8 p -> length ps = 7%nat -> length qs = 3%nat ->
  yr_out (fold_left (yr_step 8) (ry_out (fold_left (ry_step 8) (p :: ps) s) :: qs) s') = round_trip p.
Proof.
  intros s p ps s' qs ok L L'. rewrite C41_datapath by (lia || assumption).
  rewrite C43_datapath by (lia || assumption || (apply spec_ycc_ok; lia)).
  unfold round_trip. rewrite ry_formula by (lia || exact ok). rewrite yr_formula by (lia || (apply spec_ycc_ok; lia)). reflexivity.
Qed.

Theorem C44_round_trip : forall s p ps s' qs, rgb_ok 8 p -> length ps = 7%nat -> length qs = 3%nat ->
  let q := ry_out (fold_left (ry_step 8) (p :: ps) s) in
  let p' := yr_out (fold_left (yr_step 8) (q :: qs) s') in
  Z.abs (c_r p' - c_r p) <= 17 /\ Z.abs (c_g p' - c_g p) <= 16 /\ Z.abs (c_b p' - c_b p) <= 17.
Proof.
  intros s p ps s' qs ok L L' q p'. unfold p', q. rewrite through_both by assumption.
  destruct (round_trip_bounds p ok) as [H _]. lia.
Qed.

Theorem C44_round_trip_unsaturated : forall s p ps s' qs, rgb_ok 8 p -> unsaturated p ->
  length ps = 7%nat -> length qs = 3%nat ->
  let q := ry_out (fold_left (ry_step 8) (p :: ps) s) in
  let p' := yr_out (fold_left (yr_step 8) (q :: qs) s') in
  Z.abs (c_r p' - c_r p) <= 3 /\ Z.abs (c_g p' - c_g p) <= 3 /\ Z.abs (c_b p' - c_b p) <= 3.
Proof.
  intros s p ps s' qs ok U L L' q p'. unfold p', q. rewrite through_both by assumption.
  destruct (round_trip_bounds p ok) as [_ H]. specialize (H U). lia.
Qed.

(** The bounds are reached: white comes back 16 steps darker. *)
Example C44_tight : round_trip {| c_r := 255; c_g := 255; c_b := 255 |} = {| c_r := 239; c_g := 239; c_b := 239 |} /\
  unsaturated {| c_r := 200; c_g := 30; c_b := 90 |}.
Proof. split; [reflexivity|]. unfold unsaturated. vm_compute. intuition discriminate. Qed.

(** * C45: chroma downsampling *)

(** Enabled clocks of the datapath: [x k] is the input of the k-th one; [first] at [k0], and in the
    following [m] ones at most at even distances.  Pixel [2h] of the line leaves with the mean of cb over its pair, pixel
    [2h+1] with the mean of cr, each after three enabled clocks. *)
Definition ds_after w (x : nat -> ds_in) (k : nat) : ds_st := fold_left (ds_step w) (map x (seq 0 k)) ds_init.

Theorem C45_downsampling_datapath : forall w x k0 m, 0 <= w ->
  dsi_first (x k0) = true -> (forall k, (k0 < k < k0 + m)%nat -> Nat.odd (k - k0) = true -> dsi_first (x k) = false) ->
  (forall k, 0 <= c_cb (dsi_pix (x k)) < 2 ^ w /\ 0 <= c_cr (dsi_pix (x k)) < 2 ^ w) ->
  let pix j := dsi_pix (x (k0 + j)%nat) in
  forall h, (2 * h + 1 < m)%nat ->
  ds_out (ds_after w x (k0 + 2 * h + 3)) =
    {| d_y := c_y (pix (2 * h)%nat); d_c := (c_cb (pix (2 * h)%nat) + c_cb (pix (2 * h + 1)%nat)) / 2 |} /\
  ds_out (ds_after w x (k0 + (2 * h + 1) + 3)) =
    {| d_y := c_y (pix (2 * h + 1)%nat); d_c := (c_cr (pix (2 * h)%nat) + c_cr (pix (2 * h + 1)%nat)) / 2 |}.
Proof.
  intros w x k0 m Hw Hf Hl Hr pix h Hh. unfold pix, ds_after. split.
  - rewrite (ds_out_even w x k0 Hw Hf m Hl Hr h) by lia. rewrite !Nat.add_assoc. reflexivity.
  - replace (k0 + (2 * h + 1) + 3)%nat with (k0 + 2 * h + 4)%nat by lia.
    rewrite (ds_out_odd w x k0 Hw Hf m Hl Hr h) by lia. rewrite !Nat.add_assoc. reflexivity.
Qed.

(** The whole stream stage under every back-pressure schedule: a line that the producer delivers without gaps
    between the clocks [t1] and [t2], whatever comes before and after it.  If its pixel 0 comes with [first], the outputs
    are those of its pairs.  [first] may come again at even distances, so that lines of even length may follow each other. *)
Definition ds_slots w i n := pa_slots ds_st ds_in (ds_step w) ds_init ds_latency i n.
Definition ds_outputs w i n := pa_outputs ds_st ds_in yc2 (ds_step w) ds_out ds_init ds_latency i n.
Definition ds_inputs w i n := pa_inputs ds_st ds_in (ds_step w) ds_init ds_latency i n.
Definition ds_null : ds_in := {| dsi_pix := ycc0; dsi_first := false |}.

Lemma filter_all : forall (A : Type) (f : A -> bool) l, (forall x, In x l -> f x = true) -> filter f l = l.
Proof.
  intros A f. induction l as [|a l IH]; intros H; [reflexivity|]. cbn. rewrite (H a (or_introl eq_refl)).
  f_equal. apply IH. intros x Hx. apply H. right. exact Hx.
Qed.

Lemma slots_split : forall w i a b, (a <= b)%nat -> exists r, ds_slots w i b = ds_slots w i a ++ r /\
  ((forall t, (a <= t < b)%nat -> pai_valid _ (i t) = true) -> forall p, In p r -> fst p = true).
Proof.
  intros w i a b H. induction H as [|b H [r [E V]]].
  - exists []. rewrite app_nil_r. split; [reflexivity|]. intros _ p [].
  - unfold ds_slots in *. rewrite pa_slots_S, E, <- app_assoc. eexists. split; [reflexivity|].
    intros A p P. apply in_app_or in P as [P|P]; [apply V; [intros t T; apply A; lia|exact P]|].
    destruct (pa_ce _ _ _ _); [|destruct P]. destruct P as [<-|[]]. cbn [fst]. apply A. lia.
Qed.
Lemma filter_seq_run : forall (g : nat -> bool) N s m, (forall k, (s <= k < s + m)%nat -> g k = true) ->
  forall j, (j < m)%nat -> (length (filter g (seq 0 s)) + j < length (filter g (seq 0 N)))%nat ->
  nth (length (filter g (seq 0 s)) + j) (filter g (seq 0 N)) 0%nat = (s + j)%nat.
Proof.
  intros g N s m G j J H. destruct (Nat.le_gt_cases N s) as [L|L].
  - exfalso. replace s with (N + (s - N))%nat in H by lia. rewrite seq_app, filter_app, app_length in H. lia.
  - replace N with (s + (N - s))%nat in * by lia. rewrite seq_app, filter_app in *. cbn [plus] in *. rewrite app_length in H. rewrite app_nth2_plus.
    assert (R : forall k, (k <= m)%nat -> filter g (seq s k) = seq s k).
    { intros k K. apply filter_all. intros u U. apply in_seq in U. apply G. lia. }
    replace (s + (N - s) - s)%nat with (N - s)%nat in * by lia.
    destruct (Nat.le_gt_cases (N - s) m) as [M|M].
    + rewrite R in * by exact M. rewrite seq_length in H. apply seq_nth. lia.
    + replace (N - s)%nat with (m + (N - s - m))%nat by lia. rewrite seq_app, filter_app, R by lia.
      rewrite app_nth1 by (rewrite seq_length; exact J). apply seq_nth. exact J.
Qed.
Lemma valid_count : forall (sl : list (bool * ds_in)) k, (k <= length sl)%nat ->
  length (filter (fun j => nth j (map fst sl) false) (seq 0 k)) = length (filter fst (firstn k sl)).
Proof.
  intros sl. induction k as [|k IH]; intros H; [reflexivity|]. rewrite seq_S, filter_app, app_length, IH by lia.
  assert (E : firstn (S k) sl = firstn k sl ++ [nth k sl (false, ds_null)]).
  { clear IH. revert sl H. induction k as [|k IH]; intros [|p sl] H; cbn [length] in H; try lia; [reflexivity|]. cbn [firstn nth app]. f_equal. apply IH. lia. }
  rewrite E, filter_app, app_length. f_equal. cbn [filter plus]. change false with (fst (false, ds_null)) at 1. rewrite map_nth.
  destruct (fst (nth k sl (false, ds_null))); reflexivity.
Qed.
Theorem C45_downsampling_stream_partial : forall w i n t1 t2, 0 <= w -> (t1 <= t2 <= n)%nat ->
  (forall t, (t1 <= t < t2)%nat -> pai_valid _ (i t) = true) ->
  (forall t, 0 <= c_cb (dsi_pix (pai_data _ (i t))) < 2 ^ w /\ 0 <= c_cr (dsi_pix (pai_data _ (i t))) < 2 ^ w) ->
  let ins := ds_inputs w i n in let outs := ds_outputs w i n in
  let k0 := length (ds_inputs w i t1) in let m := (length (ds_inputs w i t2) - k0)%nat in
  let pix j := dsi_pix (nth (k0 + j)%nat ins ds_null) in
  dsi_first (nth k0 ins ds_null) = true ->
  (forall j, (j < m)%nat -> Nat.odd j = true -> dsi_first (nth (k0 + j) ins ds_null) = false) ->
  forall h, (2 * h + 1 < m)%nat ->
  ((k0 + 2 * h < length outs)%nat -> nth (k0 + 2 * h) outs {| d_y := 0; d_c := 0 |} =
    {| d_y := c_y (pix (2 * h)%nat); d_c := (c_cb (pix (2 * h)%nat) + c_cb (pix (2 * h + 1)%nat)) / 2 |}) /\
  ((k0 + 2 * h + 1 < length outs)%nat -> nth (k0 + 2 * h + 1) outs {| d_y := 0; d_c := 0 |} =
    {| d_y := c_y (pix (2 * h + 1)%nat); d_c := (c_cr (pix (2 * h)%nat) + c_cr (pix (2 * h + 1)%nat)) / 2 |}).
Proof.
  intros w i n t1 t2 Hw Ht Hv Hr ins outs k0 m pix Hf Hl h Hh.
  assert (HL : (0 < ds_latency)%nat) by (unfold ds_latency; lia).
  destruct (slots_split w i t1 t2 ltac:(lia)) as [mid [E2 V2]]. specialize (V2 Hv).
  destruct (slots_split w i t2 n ltac:(lia)) as [rest [En _]]. rewrite E2 in En.
  set (sl := ds_slots w i n) in *. set (s0 := length (ds_slots w i t1)) in *.
  assert (FM : filter fst mid = mid) by (apply filter_all; exact V2).
  assert (IN : forall u, ds_inputs w i u = map snd (filter fst (ds_slots w i u))) by (intros u; apply pa_inputs_slots).
  assert (M : m = length mid).
  { unfold m, k0. rewrite !IN, E2, filter_app, !map_length, app_length, FM. lia. }
  assert (PX : forall j, (j < m)%nat -> nth (k0 + j) ins ds_null = snd (nth (s0 + j) sl (false, ds_null))).
  { intros j J. unfold ins. rewrite IN. fold sl. rewrite En, !filter_app, FM, !map_app, <- !app_assoc.
    unfold k0. rewrite IN. rewrite app_nth2_plus. unfold s0. rewrite app_nth2_plus.
    rewrite app_nth1 by (rewrite map_length; lia). rewrite app_nth1 by lia. change ds_null with (snd (false, ds_null)) at 1. apply map_nth. }
  assert (VS : forall j, (s0 <= j < s0 + m)%nat -> nth j (map fst sl) false = true).
  { intros j J. replace j with (s0 + (j - s0))%nat by lia. change false with (fst (false, ds_null)). rewrite map_nth. rewrite En, <- app_assoc.
    assert (J' : (j - s0 < length mid)%nat) by lia. clear J. unfold s0 at 1. rewrite app_nth2_plus. rewrite app_nth1 by exact J'. apply V2. apply nth_In. exact J'. }
  assert (K0 : length (filter (fun j => nth j (map fst sl) false) (seq 0 s0)) = k0).
  { rewrite valid_count by (rewrite En, !app_length; fold s0; lia). unfold k0. rewrite IN, map_length. f_equal. f_equal.
    rewrite En, <- app_assoc. unfold s0. rewrite firstn_app, Nat.sub_diag, firstn_all. cbn [firstn]. apply app_nil_r. }
  pose proof (pa_outputs_general _ _ _ (ds_step w) ds_out ds_init ds_latency HL i n) as EO.
  fold (ds_outputs w i n) in EO. fold (ds_slots w i n) in EO. fold outs sl in EO.
  set (N := (length sl - ds_latency)%nat) in *.
  set (x := fun k => snd (nth k sl (false, ds_null))).
  assert (FI : forall k, (k <= length sl)%nat -> firstn k (map snd sl) = map x (seq 0 k)).
  { intros k Hk. apply (nth_ext _ _ ds_null ds_null); [rewrite firstn_length, !map_length, seq_length; lia|].
    intros j Hj. rewrite firstn_length, map_length in Hj. rewrite nth_map_seq by lia. unfold x.
    rewrite <- (map_nth snd). cbn [snd]. rewrite <- (firstn_skipn k (map snd sl)) at 2. rewrite app_nth1 by (rewrite firstn_length, map_length; lia). reflexivity. }
  assert (NO : forall j, (j < m)%nat -> (k0 + j < length outs)%nat -> nth (k0 + j) outs {| d_y := 0; d_c := 0 |} = ds_out (ds_after w x (s0 + j + 3))).
  { intros j J L. rewrite EO in L |- *. rewrite map_length in L.
    set (F := fun j => ds_out (fold_left (ds_step w) (firstn (j + ds_latency) (map snd sl)) ds_init)).
    rewrite (nth_indep _ {| d_y := 0; d_c := 0 |} (F 0%nat)) by (rewrite map_length; exact L). rewrite map_nth.
    assert (Q : nth (k0 + j) (filter (fun j => nth j (map fst sl) false) (seq 0 N)) 0%nat = (s0 + j)%nat).
    { rewrite <- K0. apply (filter_seq_run _ N s0 m VS j J). rewrite K0. exact L. }
    rewrite Q. unfold F. assert (B : (s0 + j < N)%nat).
    { rewrite <- Q. assert (I : In (nth (k0 + j) (filter (fun j => nth j (map fst sl) false) (seq 0 N)) 0%nat) (filter (fun j => nth j (map fst sl) false) (seq 0 N))) by (apply nth_In; exact L).
      apply filter_In in I as [I _]. apply in_seq in I. lia. }
    rewrite FI by (unfold N in B; lia). reflexivity. }
  assert (Rx : forall k, 0 <= c_cb (dsi_pix (x k)) < 2 ^ w /\ 0 <= c_cr (dsi_pix (x k)) < 2 ^ w).
  { intros k. unfold x. destruct (Nat.lt_ge_cases k (length sl)) as [Hk | Hk].
    - assert (SV : forall p, In p sl -> 0 <= c_cb (dsi_pix (snd p)) < 2 ^ w /\ 0 <= c_cr (dsi_pix (snd p)) < 2 ^ w).
      { unfold sl, ds_slots, pa_slots. clear - Hr. induction n as [|n IH]; intros p Hp; [destruct Hp|].
        cbn [collect] in Hp. apply in_app_or in Hp as [Hp | Hp]; [apply IH; exact Hp|].
        destruct (pa_ce _ _ _ _); [|destruct Hp]. destruct Hp as [<- | []]. cbn [snd]. apply Hr. }
      apply SV. apply nth_In. exact Hk.
    - rewrite nth_overflow by exact Hk. cbn. assert (0 < 2 ^ w) by (apply Z.pow_pos_nonneg; lia). lia. }
  assert (F0 : dsi_first (x s0) = true).
  { unfold x. pose proof (PX 0%nat ltac:(lia)) as P. rewrite !Nat.add_0_r in P. rewrite <- P. exact Hf. }
  assert (FL : forall k, (s0 < k < s0 + m)%nat -> Nat.odd (k - s0) = true -> dsi_first (x k) = false).
  { intros k K O. unfold x. replace k with (s0 + (k - s0))%nat by lia. rewrite <- PX by lia. apply Hl; [lia|exact O]. }
  pose proof (PX (2 * h)%nat ltac:(lia)) as P0. pose proof (PX (2 * h + 1)%nat ltac:(lia)) as P1.
  destruct (C45_downsampling_datapath w x s0 m Hw F0 FL Rx h Hh) as [A B]. unfold pix. rewrite P0, P1.
  split; intros H.
  - rewrite NO by lia. exact A.
  - replace (k0 + 2 * h + 1)%nat with (k0 + (2 * h + 1))%nat by lia. rewrite NO by lia. exact B.
Qed.

(** With gaps in the input stream it is false: the pair position advances on empty slots too.
    Pixels 1, 2, 3 (luma) with a gap after the first: the second one leaves paired with the third. *)
Definition ex_ds (t : nat) : pa_in ds_in :=
  let px v := {| c_y := v; c_cb := 10 * v; c_cr := 10 * v + 1 |} in
  match t with
  | 0%nat => Build_pa_in _ true {| dsi_pix := px 1; dsi_first := true |} true
  | 1%nat => Build_pa_in _ false {| dsi_pix := ycc0; dsi_first := false |} true
  | 2%nat => Build_pa_in _ true {| dsi_pix := px 2; dsi_first := false |} true
  | _ => Build_pa_in _ true {| dsi_pix := px 3; dsi_first := false |} true
  end.
Theorem C45_gaps_refuted : exists i n,
  let ins := ds_inputs 8 i n in
  dsi_first (nth 0 ins ds_null) = true /\ (forall k, (0 < k)%nat -> dsi_first (nth k ins ds_null) = false) /\
  (2 <= length (ds_outputs 8 i n))%nat /\
  d_c (nth 0 (ds_outputs 8 i n) {| d_y := 0; d_c := 0 |}) <>
    (c_cb (dsi_pix (nth 0 ins ds_null)) + c_cb (dsi_pix (nth 1 ins ds_null))) / 2.
Proof.
  exists ex_ds, 7%nat. cbv zeta.
  set (v := ds_inputs 8 ex_ds 7). vm_compute in v. subst v.
  split; [reflexivity|]. split; [|vm_compute; split; [lia|discriminate]].
  intros k Hk. do 7 (destruct k as [|k]; [try lia; reflexivity|]). destruct k; reflexivity.
Qed.
Theorem C40_downsampler_gaps_refuted : exists i j n,
  ds_inputs 8 i n = ds_inputs 8 j 6 /\ firstn 2 (ds_outputs 8 i n) <> firstn 2 (ds_outputs 8 j 6).
Proof.
  exists ex_ds, (fun t => ex_ds (match t with 0 => 0 | S k => S (S k) end)%nat), 7%nat.
  vm_compute. split; [reflexivity|discriminate].
Qed.

(** * C46: chroma upsampling, every valid/ready schedule *)
Definition yc2_null : yc2 := {| d_y := 0; d_c := 0 |}.
Theorem C46_upsampling : forall i n,
  let ins := us_ins i n in
  us_outs i n =
    map (fun k => {| c_y := d_y (nth k ins yc2_null);
                     c_cb := d_c (nth (2 * (k / 2)) ins yc2_null);
                     c_cr := d_c (nth (2 * (k / 2) + 1) ins yc2_null) |}) (seq 0 (length (us_outs i n))) /\
  (length (us_outs i n) <= 2 * (length ins / 2))%nat /\ (length ins <= length (us_outs i n) + 4)%nat.
Proof.
  intros i n ins. destruct (us_outs_expected i n) as [E L]. split; [exact E|]. split; [exact L|].
  destruct (us_inv i n) as (A & B & _ & _ & _ & _ & C). rewrite B, map_length, seq_length in C. unfold ins. lia.
Qed.

(** No deadlock: in every reachable state it can accept a pixel or offers one; and it offers one as soon
    as both pixels of a pair were accepted. *)
Theorem C46_no_deadlock : forall i n,
  us_sink_ready (us_run i n) = true \/ us_source_valid (us_run i n) = true.
Proof.
  intros i n. pose proof (us_inv i n) as R.
  rewrite (us_rel_valid _ _ _ R), (us_rel_ready _ _ _ R).
  pose proof (odd_half (length (us_ins i n))) as H. destruct R as (A & _).
  destruct (Nat.ltb_spec (length (us_ins i n) - length (us_outs i n)) 4) as [L | L]; [left; reflexivity|right].
  apply Nat.ltb_lt. destruct (Nat.odd (length (us_ins i n))); lia.
Qed.
Theorem C46_offers_complete_pairs : forall i n,
  us_source_valid (us_run i n) = (length (us_outs i n) <? 2 * (length (us_ins i n) / 2))%nat.
Proof. intros i n. apply us_rel_valid. apply us_inv. Qed.

(** * Examples *)
Definition ex_px : rgb := {| c_r := 200; c_g := 30; c_b := 90 |}.
Example C41_case : rgb_ok 8 ex_px /\ ry_fun 8 ex_px = {| c_y := 80; c_cb := 142; c_cr := 216 |}.
Proof. split; [unfold rgb_ok; cbn; lia|vm_compute; reflexivity]. Qed.
Example C43_case : ycc_ok 8 (ry_fun 8 ex_px) /\ yr_fun 8 (ry_fun 8 ex_px) = {| c_r := 198; c_g := 30; c_b := 89 |}.
Proof. split; [unfold ycc_ok; vm_compute; intuition congruence|vm_compute; reflexivity]. Qed.
Definition ex_pa (t : nat) : pa_in rgb :=
  Build_pa_in _ (negb (t =? 2)%nat) {| c_r := Z.of_nat t; c_g := 30; c_b := 90 |} (Nat.odd t).
Example C40_case : length (ry_inputs 8 ex_pa 14) = 11%nat /\ length (ry_outputs 8 ex_pa 14) = 3%nat.
Proof. vm_compute. auto. Qed.
Definition ex_ds2 (t : nat) : pa_in ds_in :=
  Build_pa_in _ true {| dsi_pix := {| c_y := Z.of_nat t; c_cb := 10; c_cr := 20 + Z.of_nat t |}; dsi_first := (t =? 3)%nat |} (negb (t =? 5)%nat).
Example C45_case : dsi_first (nth 3 (ds_inputs 8 ex_ds2 14) ds_null) = true /\
  nth 4 (ds_outputs 8 ex_ds2 14) yc2_null = {| d_y := 4; d_c := 23 |}.
Proof. vm_compute. auto. Qed.
Definition ex_us (t : nat) : us_in :=
  {| usi_valid := negb (t =? 3)%nat; usi_pix := {| d_y := Z.of_nat t; d_c := 100 + Z.of_nat t |}; usi_ready := Nat.odd t |}.
Example C46_case : us_outs ex_us 8 =
  [{| c_y := 0; c_cb := 100; c_cr := 101 |}; {| c_y := 1; c_cb := 100; c_cr := 101 |}; {| c_y := 2; c_cb := 102; c_cr := 104 |}].
Proof. vm_compute. reflexivity. Qed.

Print Assumptions C40_rgb2ycbcr_stream_partial.
Print Assumptions C40_ycbcr2rgb_stream_partial.
Print Assumptions C40_stable_while_stalled_partial.
Print Assumptions C40_latency_partial.
Print Assumptions C40_downsampler_gaps_refuted.
Print Assumptions C41_datapath.
Print Assumptions C41_no_overflow.
Print Assumptions C42_accuracy.
Print Assumptions C43_datapath.
Print Assumptions C43_no_overflow.
Print Assumptions C44_round_trip.
Print Assumptions C44_round_trip_unsaturated.
Print Assumptions C45_downsampling_datapath.
Print Assumptions C45_downsampling_stream_partial.
Print Assumptions C45_gaps_refuted.
Print Assumptions C46_upsampling.
Print Assumptions C46_no_deadlock.
Print Assumptions C46_offers_complete_pairs.
