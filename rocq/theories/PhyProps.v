(** C83 and C84: the pins of the VGA PHY, and what the PHY is given when the memory does not keep up. *)
From Coq Require Import ZArith List Bool Lia Arith.
From Verif Require Import Hdl Trace TimingModel TimingSpec TimingProofs VideoOutModel VideoOutProofs HdmiModel LinkModel
  LinkProofs PhyModel.
Import ListNotations.
Open Scope Z_scope.

(** * Auxiliary: the stream with underflows *)
Section Uf.
Variable p : fparam.
Hypothesis ok : params_ok p.
Variable w : nat -> Z.
Variable dv : nat -> bool.
Variable junk : nat -> Z.
Let st := vs_run false w (uf_in p dv).
Let o := uf_stream p w dv junk.
Let stall (m : nat) : bool := px_de (o m) && negb (dv m).

Lemma uf_le : forall (f : nat -> bool) n, (occurrences f 0 n <= n)%nat.
Proof. intros f. induction n as [|n IH]; [cbn; lia|]. cbn [occurrences]. destruct (f (0 + n)%nat); lia. Qed.

Lemma uf_inv : forall n, let k := (n - occurrences stall 0 n)%nat in
  vs_tg (st n) = tg_at p (Z.of_nat k) /\ vs_taken (st n) = pixels_before p (k - 1).
Proof.
  induction n as [|n IH]; [split; [symmetry; apply tg_at_0; exact ok|reflexivity]|].
  cbv zeta in *. destruct IH as [I1 I2]. pose proof (uf_le stall n) as LE.
  cbn [occurrences]. rewrite Nat.add_0_l. set (c := occurrences stall 0 n) in *.
  assert (DE : px_de (o n) = tg_de true (vs_tg (st n))) by reflexivity.
  assert (DE' : tg_de true (vs_tg (st n)) = tx_de p (n - c)).
  { rewrite I1. unfold tg_de, tg_at, tx_de, spec_de. cbn [t_hact t_vact]. rewrite one_le.
    destruct (1 <=? n - c)%nat; reflexivity. }
  change (st (S n)) with (vs_step false w (st n) (uf_in p dv n)). unfold vs_step. cbn [vs_tg vs_taken].
  unfold vo_step, vo_tready, vo_dready, vo_valid.
  cbn [vs_vi uf_in vi_valid vi_p vi_dv vi_ready si_valid si_p si_dv si_ready negb andb].
  unfold stall at 1 2. rewrite DE, DE'. rewrite !andb_true_r, orb_false_r.
  destruct (tx_de p (n - c)) eqn:T; cbn [negb orb andb]; destruct (dv n); cbn [negb andb].
  - replace (S n - (c + 0))%nat with (S (n - c)) by lia. split.
    + rewrite I1, tg_at_succ by (try exact ok; lia). f_equal. lia.
    + rewrite I2. unfold tx_de in T. apply andb_true_iff in T. destruct T as [T1 T]. apply Nat.leb_le in T1.
      replace (S (n - c) - 1)%nat with (S (n - c - 1)) by lia. unfold pixels_before. cbn [occurrences]. rewrite Nat.add_0_l.
      replace (Z.of_nat (n - c) - 1) with (Z.of_nat (n - c - 1)) in T by lia. rewrite T. lia.
  - replace (S n - (c + 1))%nat with (n - c)%nat by lia. split; [|exact I2].
    rewrite I1. reflexivity.
  - replace (S n - (c + 0))%nat with (S (n - c)) by lia. split.
    + rewrite I1, tg_at_succ by (try exact ok; lia). f_equal. lia.
    + rewrite I2. unfold tx_de in T. destruct (n - c)%nat as [|k]; [reflexivity|].
      replace (S (S k) - 1)%nat with (S k) by lia. replace (S k - 1)%nat with k by lia.
      unfold pixels_before. cbn [occurrences]. rewrite Nat.add_0_l.
      replace (Z.of_nat (S k) - 1) with (Z.of_nat k) in T by lia. cbn [Nat.leb andb] in T. rewrite T. lia.
  - replace (S n - (c + 0))%nat with (S (n - c)) by lia. split.
    + rewrite I1, tg_at_succ by (try exact ok; lia). f_equal. lia.
    + rewrite I2. unfold tx_de in T. destruct (n - c)%nat as [|k]; [reflexivity|].
      replace (S (S k) - 1)%nat with (S k) by lia. replace (S k - 1)%nat with k by lia.
      unfold pixels_before. cbn [occurrences]. rewrite Nat.add_0_l.
      replace (Z.of_nat (S k) - 1) with (Z.of_nat k) in T by lia. cbn [Nat.leb andb] in T. rewrite T. lia.
Qed.
End Uf.

(** * C84 *)

(** Clocks before [n] in which a pixel was due and the memory had none. *)
Definition underflows (o : nat -> px) (dv : nat -> bool) (n : nat) : nat :=
  occurrences (fun m => px_de (o m) && negb (dv m)) 0 n.

(** The exact picture: each underflow holds the whole scan (syncs included) for one
    clock.  What the PHY is given in clock [n] is the point of the scan that an
    undisturbed output gives it in clock [n - underflows n], with the right pixel if
    the memory has it. *)
Theorem C84_stretched_partial : forall p w dv junk, params_ok p ->
  let o := uf_stream p w dv junk in
  forall n, let u := underflows o dv n in (u <= n)%nat /\
  (n = u -> px_de (o n) = false /\ px_hs (o n) = false /\ px_vs (o n) = false) /\
  (forall f y x, 0 <= f -> 0 <= y < p_vscan p + 1 -> 0 <= x < p_hscan p + 1 ->
   Z.of_nat n = 1 + (f * (p_vscan p + 1) + y) * (p_hscan p + 1) + x + Z.of_nat u ->
   px_de (o n) = (x <? p_hres p) && (y <? p_vres p) /\
   px_hs (o n) = (p_hs_start p <=? x) && (x <? p_hs_end p) /\
   px_vs (o n) = (p_vs_start p <=? y) && (y <? p_vs_end p) /\
   (x < p_hres p -> y < p_vres p -> dv n = true ->
    let d := w (Z.to_nat ((f * p_vres p + y) * p_hres p + x)) in
    px_r (o n) = d mod 2 ^ 8 /\ px_g (o n) = d / 2 ^ 8 mod 2 ^ 8 /\ px_b (o n) = d / 2 ^ 16 mod 2 ^ 8)).
Proof.
  intros p w dv junk ok o n u.
  pose proof (uf_le (fun m => px_de (o m) && negb (dv m)) n) as LE. split; [exact LE|].
  destruct (uf_inv p ok w dv junk n) as [I1 I2]. cbv zeta in I1, I2.
  change (occurrences (fun m => px_de (uf_stream p w dv junk m) && negb (dv m)) 0 n) with u in I1, I2.
  assert (HS : px_hs (o n) = t_hs (tg_at p (Z.of_nat (n - u)))) by (rewrite <- I1; reflexivity).
  assert (VS : px_vs (o n) = t_vs (tg_at p (Z.of_nat (n - u)))) by (rewrite <- I1; reflexivity).
  assert (DE : px_de (o n) = tg_de true (tg_at p (Z.of_nat (n - u)))) by (rewrite <- I1; reflexivity).
  split.
  - intros E. replace (n - u)%nat with 0%nat in HS, VS, DE by lia. rewrite HS, VS, DE.
    change (Z.of_nat 0) with 0. rewrite tg_at_0 by exact ok. auto.
  - intros f y x Hf Hy Hx E.
    destruct (point_xy p f y x Hf ltac:(lia) ltac:(lia)) as [A B]. cbv zeta in A, B.
    set (k := (f * (p_vscan p + 1) + y) * (p_hscan p + 1) + x) in *.
    assert (K : 0 <= k) by (unfold k; destruct ok; nia).
    assert (NK : Z.of_nat (n - u) = k + 1) by lia.
    rewrite HS, VS, DE, NK. unfold tg_at, tg_de, spec_hsync, spec_vsync. cbn [t_hact t_vact t_hs t_vs].
    replace (k + 1 - 1) with k by lia. rewrite A, B.
    replace (1 <=? k + 1) with true by (symmetry; apply Z.leb_le; lia). cbn [andb].
    split; [reflexivity|]. split; [reflexivity|]. split; [reflexivity|].
    intros Xr Yr D. cbv zeta.
    assert (T : vs_taken (vs_run false w (uf_in p dv) n) = Z.to_nat ((f * p_vres p + y) * p_hres p + x)).
    { rewrite I2. replace (n - u - 1)%nat with (Z.to_nat k) by lia.
      apply Nat2Z.inj. pose proof (pixels_before_point p ok f y x Hf ltac:(lia) ltac:(lia)) as PB. cbv zeta in PB.
      fold k in PB. rewrite PB. rewrite Z2Nat.id; [ring|]. destruct ok. nia. }
    unfold o, uf_stream. cbv zeta. cbn [tx_px px_r px_g px_b vi_data]. rewrite D, T.
    unfold slice. rewrite Z.div_1_r. auto.
Qed.
Print Assumptions C84_stretched_partial.

(** C84 as stated is false: one missing word and the sync pulses are no longer a
    line apart. *)
Definition ex_uf : fparam :=
  {| p_hres := 2; p_hs_start := 3; p_hs_end := 4; p_hscan := 4;
     p_vres := 1; p_vs_start := 1; p_vs_end := 1; p_vscan := 1 |}.
Lemma ex_uf_ok : params_ok ex_uf.
Proof. constructor; cbn; lia. Qed.
Theorem C84_sync_period_refuted : exists p w dv junk (n : nat), params_ok p /\ (1 <= n)%nat /\
  let o := uf_stream p w dv junk in
  px_hs (o n) <> px_hs (o (n + Z.to_nat (p_hscan p + 1))%nat).
Proof.
  exists ex_uf, Z.of_nat, (fun n => negb (n =? 11)%nat), (fun _ => 0), 9%nat.
  split; [exact ex_uf_ok|]. split; [lia|]. vm_compute. discriminate.
Qed.
Print Assumptions C84_sync_period_refuted.

(** Non-vacuity of the exact form: with the word for clock 11 missing, the syncs
    of the third line come one clock late, and the pixels are still consecutive. *)
Example ex_uf_hs : let o := uf_stream ex_uf Z.of_nat (fun n => negb (n =? 11)%nat) (fun _ => 77) in
  map (fun n => px_hs (o n)) [4; 9; 14; 15; 20]%nat = [true; true; false; true; true] /\
  map (fun n => (px_de (o n), px_r (o n))) [1; 2; 11; 12; 13; 14]%nat =
    [(true, 0); (true, 1); (true, 77); (true, 2); (true, 3); (false, 4)] /\
  underflows o (fun n => negb (n =? 11)%nat) 15 = 1%nat.
Proof. vm_compute. auto. Qed.

(** * C83 *)

(** A pin bus of [k] bits carries the most significant bits of the byte [c]. *)
Definition top_bits (k c v : Z) : Prop := 0 <= v < 2 ^ k /\ v * 2 ^ (8 - k) <= c < (v + 1) * 2 ^ (8 - k).

Lemma slice_top : forall k c, 0 <= k <= 8 -> 0 <= c < 256 -> top_bits k c (slice (8 - k) k c).
Proof.
  intros k c K C. unfold top_bits, slice.
  assert (P : 0 < 2 ^ (8 - k)) by (apply Z.pow_pos_nonneg; lia).
  assert (Q : c / 2 ^ (8 - k) < 2 ^ k).
  { apply Z.div_lt_upper_bound; [exact P|]. rewrite <- Z.pow_add_r by lia. replace (8 - k + k) with 8 by lia. lia. }
  assert (N : 0 <= c / 2 ^ (8 - k)) by (apply Z.div_pos; lia).
  rewrite Z.mod_small by lia. split; [lia|].
  pose proof (Z.div_mod c (2 ^ (8 - k)) ltac:(lia)) as D. pose proof (Z.mod_pos_bound c (2 ^ (8 - k)) P). nia.
Qed.

(** The pins at the point of frame [f], line [y], column [x]: active-low syncs in
    their windows; in the active area the top bits of the colours of that pixel.
    Missing: black in blanking; the pins carry the colours of the next pixel there. *)
Theorem C83_vga_pins_partial : forall p w rw gw bw, params_ok p ->
  0 <= rw <= 8 -> 0 <= gw <= 8 -> 0 <= bw <= 8 ->
  forall f y x n, 0 <= f -> 0 <= y < p_vscan p + 1 -> 0 <= x < p_hscan p + 1 ->
  Z.of_nat n = 1 + (f * (p_vscan p + 1) + y) * (p_hscan p + 1) + x ->
  let v := vga_phy rw gw bw (tx_stream p w n) in
  (vga_hsync_n v = false <-> p_hs_start p <= x < p_hs_end p) /\
  (vga_vsync_n v = false <-> p_vs_start p <= y < p_vs_end p) /\
  vga_psave_n v = true /\
  exists q, (x < p_hres p -> y < p_vres p -> Z.of_nat q = (f * p_vres p + y) * p_hres p + x) /\
    (y < p_vres p -> p_hres p <= x -> Z.of_nat q = (f * p_vres p + y + 1) * p_hres p) /\
    (p_vres p <= y -> Z.of_nat q = (f + 1) * p_vres p * p_hres p) /\
    top_bits rw (w q mod 256) (vga_r v) /\ top_bits gw (w q / 256 mod 256) (vga_g v) /\
    top_bits bw (w q / 65536 mod 256) (vga_b v).
Proof.
  intros p w rw gw bw ok Hr Hg Hb f y x n Hf Hy Hx E v.
  destruct (point_xy p f y x Hf ltac:(lia) ltac:(lia)) as [A B]. cbv zeta in A, B.
  set (k := (f * (p_vscan p + 1) + y) * (p_hscan p + 1) + x) in *.
  assert (K : 0 <= k) by (unfold k; destruct ok; nia).
  assert (N1 : (1 <=? n)%nat = true) by (apply Nat.leb_le; lia).
  assert (NK : Z.of_nat n - 1 = k) by lia.
  split; [|split; [|split; [reflexivity|]]].
  - unfold v, vga_phy. cbn [vga_hsync_n]. rewrite tx_stream_hs by exact ok. unfold tx_hs, spec_hsync.
    rewrite N1, NK, A. cbn [andb]. rewrite negb_false_iff, andb_true_iff, Z.leb_le, Z.ltb_lt. reflexivity.
  - unfold v, vga_phy. cbn [vga_vsync_n]. rewrite tx_stream_vs by exact ok. unfold tx_vs, spec_vsync.
    rewrite N1, NK, B. cbn [andb]. rewrite negb_false_iff, andb_true_iff, Z.leb_le, Z.ltb_lt. reflexivity.
  - exists (pixels_before p (n - 1)). replace (n - 1)%nat with (Z.to_nat k) by lia.
    assert (PB : Z.of_nat (pixels_before p (Z.to_nat k)) = f * (p_hres p * p_vres p) +
      (if y <? p_vres p then y * p_hres p + Z.min x (p_hres p) else p_hres p * p_vres p)).
    { rewrite (pixels_before_closed p ok). cbv zeta. rewrite Z2Nat.id by exact K. rewrite A, B.
      replace (k / (p_hscan p + 1)) with (f * (p_vscan p + 1) + y) by (apply (Z.div_unique _ _ _ x); lia).
      replace ((f * (p_vscan p + 1) + y) / (p_vscan p + 1)) with f by (apply (Z.div_unique _ _ _ y); lia). reflexivity. }
    rewrite PB. split; [|split; [|split]].
    + intros Xr Yr. destruct (Z.ltb_spec y (p_vres p)); [|lia]. rewrite Z.min_l by lia. ring.
    + intros Yr Xr. destruct (Z.ltb_spec y (p_vres p)); [|lia]. rewrite Z.min_r by lia. ring.
    + intros Yr. destruct (Z.ltb_spec y (p_vres p)); [lia|]. ring.
    + destruct (tx_stream_rgb p ok w n) as (R & G & Bb). replace (n - 1)%nat with (Z.to_nat k) in R, G, Bb by lia.
      unfold v, vga_phy. cbn [vga_r vga_g vga_b]. rewrite R, G, Bb.
      replace (slice 0 8 (w (pixels_before p (Z.to_nat k)))) with (w (pixels_before p (Z.to_nat k)) mod 256)
        by (unfold slice; rewrite Z.div_1_r; reflexivity).
      change (slice 8 8 (w (pixels_before p (Z.to_nat k)))) with (w (pixels_before p (Z.to_nat k)) / 256 mod 256).
      change (slice 16 8 (w (pixels_before p (Z.to_nat k)))) with (w (pixels_before p (Z.to_nat k)) / 65536 mod 256).
      repeat split; apply slice_top; try assumption; apply Z.mod_pos_bound; lia.
Qed.
Print Assumptions C83_vga_pins_partial.

(** C83 as stated is false: white pixels on the pins in blanking. *)
Theorem C83_black_in_blanking_refuted : exists p w rw gw bw (n : nat), params_ok p /\ 0 <= rw <= 8 /\ 0 <= gw <= 8 /\ 0 <= bw <= 8 /\
  px_de (tx_stream p w n) = false /\ vga_r (vga_phy rw gw bw (tx_stream p w n)) <> 0.
Proof.
  exists ex_uf, (fun _ => 16777215), 4, 4, 4, 4%nat. split; [exact ex_uf_ok|].
  do 3 (split; [lia|]). split; [vm_compute; reflexivity|vm_compute; discriminate].
Qed.
Print Assumptions C83_black_in_blanking_refuted.
Example ex_vga : vga_phy 3 3 2 (tx_stream ex_uf (fun n => 255 - Z.of_nat n + 256 * 70) 2) =
  {| vga_hsync_n := true; vga_vsync_n := true; vga_r := 7; vga_g := 2; vga_b := 0; vga_psave_n := true |}.
Proof. vm_compute. reflexivity. Qed.
