(** C109, C110: the reference functions of the test benches. *)
From Coq Require Import ZArith List Bool Lia Arith.
From Verif Require Import Hdl Trace PipeModel FloatModel FloatSpec FloatProofs FloatProps RefModel.
Import ListNotations.
Open Scope Z_scope.

(** * C109: half floats *)

Lemma all_halves : forall (p : Z -> bool) (m : nat), forallb (fun h => forallb (fun l => p (1024 * h + l)) (zrange 0 1024)) (zrange 0 m) = true ->
  forall x, 0 <= x < 1024 * Z.of_nat m -> p x = true.
Proof.
  intros p m H x X. pose proof (Z.div_mod x 1024 ltac:(lia)) as E. pose proof (Z.mod_pos_bound x 1024 ltac:(lia)) as U.
  pose proof (forallb_zrange _ _ _ H (x / 1024) ltac:(lia)) as A. cbv beta in A. pose proof (forallb_zrange _ _ _ A (x mod 1024) ltac:(lia)) as B. cbv beta in B.
  rewrite E. exact B.
Qed.

(** Every half below 1.0: the reference agrees with what the half-to-pixel actor delivers,
    through any handshake. *)
Lemma float2int_floor : forall x, 0 <= x < 15360 -> float2int x = Some (hval x / 2 ^ 16).
Proof.
  intros x H. pose proof (all_halves (fun x => match float2int x with Some p => p =? hval x / 2 ^ 16 | None => false end) 15 ltac:(vm_compute; reflexivity) x ltac:(lia)) as B. cbv beta in B.
  destruct (float2int x); [apply Z.eqb_eq in B; subst; reflexivity|discriminate].
Qed.
Theorem C109_half_to_pixel : forall i n j, (j < length (fp3_outputs i n))%nat ->
  let '(x, y, z) := nth j (fp3_inputs i n) (0, 0, 0) in
  let '(r, g, b) := nth j (fp3_outputs i n) (0, 0, 0) in
  (0 <= x < 15360 -> float2int x = Some r) /\ (0 <= y < 15360 -> float2int y = Some g) /\ (0 <= z < 15360 -> float2int z = Some b).
Proof.
  intros i n j H. destruct (C47_pixel_partial i n) as [_ P]. specialize (P j H).
  destruct (nth j (fp3_inputs i n) (0, 0, 0)) as [[x y] z]. destruct (nth j (fp3_outputs i n) (0, 0, 0)) as [[r g] b]. destruct P as (P1 & P2 & P3).
  assert (V : forall x, 0 <= x < 15360 -> hval x / 2 ^ 16 <= 255).
  { intros u U. pose proof (fp_floor u U) as F. rewrite <- F. 
    apply Z.leb_le. apply (all_halves (fun x => fp_fun x <=? 255) 15); [vm_compute; reflexivity|lia]. }
  repeat split; intros U; rewrite float2int_floor by exact U; f_equal; symmetry.
  - rewrite P1 by exact U. pose proof (V x U). lia.
  - rewrite P2 by exact U. pose proof (V y U). lia.
  - rewrite P3 by exact U. pose proof (V z U). lia.
Qed.
(** Every pixel: the reference agrees with the lookup converter and is inverted by the
    other reference. *)
Theorem C109_pixel_to_half : forall (i : nat -> Z) s0 n, 0 <= i n < 256 ->
  int2float (i n) = lu_out (at_ lu_step s0 i (n + lu_latency)) /\ hval (int2float (i n)) = i n * 2 ^ 16 /\ float2int (int2float (i n)) = Some (i n).
Proof.
  intros i s0 n H.
  assert (A : forallb (fun p => (int2float p =? nth (Z.to_nat p) pix_lut 0) && (0 <=? int2float p) && (int2float p <? 15360)) (zrange 0 256) = true) by (vm_compute; reflexivity).
  pose proof (forallb_zrange _ _ _ A (i n) ltac:(lia)) as B. cbv beta in B. apply andb_prop in B as [B B3]. apply andb_prop in B as [B1 B2].
  apply Z.eqb_eq in B1. apply Z.leb_le in B2. apply Z.ltb_lt in B3.
  assert (E : int2float (i n) = lu_out (at_ lu_step s0 i (n + lu_latency))).
  { rewrite B1. unfold lu_latency. rewrite Nat.add_1_r. change (at_ lu_step s0 i (S n)) with (lu_step (at_ lu_step s0 i n) (i n)). symmetry. apply lu_pure. exact H. }
  destruct (C48_lookup_partial i s0 n fp_init 0 H) as (_ & V & _). rewrite <- E in V.
  split; [exact E|]. split; [exact V|]. rewrite float2int_floor by lia. rewrite V. rewrite Z.div_mul by lia. reflexivity.
Qed.
(** Every finite half of either sign is decoded to its value. *)
Theorem C109_decode : forall x, 0 <= x < 65536 -> x mod 32768 < 31744 -> binint2float x = sval x.
Proof.
  intros x H F. pose proof (all_halves (fun x => implb (x mod 32768 <? 31744) (binint2float x =? sval x)) 64 ltac:(vm_compute; reflexivity) x ltac:(lia)) as B.
  cbv beta in B. rewrite (proj2 (Z.ltb_lt _ _) F) in B. apply Z.eqb_eq. exact B.
Qed.
(** Outside: 1.0 gives 256, 4.0 an exception, infinity counts as 65536. *)
Example C109_outside : float2int 15360 = Some 256 /\ float2int 18432 = None /\ binint2float 31744 = 65536 * 2 ^ 24.
Proof. vm_compute. auto. Qed.
Example C109_ex : int2float 200 = 14912 /\ float2int 14912 = Some 200 /\ binint2float 49152 = - 2 * 2 ^ 24.
Proof. vm_compute. auto. Qed.

(** * C110: packing *)
Lemma ones_bit : forall w k, 0 <= w -> 0 <= k -> Z.testbit (Z.ones w) k = (k <? w).
Proof. intros w k W K. destruct (Z.ltb_spec k w); [apply Z.ones_spec_low; lia|apply Z.ones_spec_high; lia]. Qed.
Lemma field : forall w x k, 0 <= w -> 0 <= k -> Z.testbit (Z.land x (Z.ones w)) k = Z.testbit x k && (k <? w).
Proof. intros. rewrite Z.land_spec, ones_bit by lia. reflexivity. Qed.
Theorem C110_pack_unpack : forall w l, 0 <= w ->
  unpack w (pack w l) = map (fun '(a, b, c) => (a mod 2 ^ w, b mod 2 ^ w, c mod 2 ^ w)) l.
Proof.
  intros w l W. induction l as [|[[a b] c] l IH]; [reflexivity|]. cbn [pack map]. unfold unpack in *. cbn [map]. rewrite IH. f_equal.
  rewrite <- !Z.land_ones by exact W.
  assert (G : forall s x, s = 2 * w /\ x = a \/ s = w /\ x = b \/ s = 0 /\ x = c ->
    Z.land (Z.shiftr (Z.lor (Z.lor (Z.shiftl (Z.land a (Z.ones w)) (2 * w)) (Z.shiftl (Z.land b (Z.ones w)) w)) (Z.shiftl (Z.land c (Z.ones w)) 0)) s) (Z.ones w) = Z.land x (Z.ones w)).
  { intros s x C. apply Z.bits_inj'. intros k K. rewrite !field by lia. destruct (Z.ltb_spec k w) as [L|L]; [|rewrite !andb_false_r; reflexivity]. rewrite !andb_true_r.
    rewrite Z.shiftr_spec by exact K. rewrite !Z.lor_spec. rewrite !Z.shiftl_spec by lia.
    assert (P : forall y z, Z.testbit (Z.land y (Z.ones w)) z = Z.testbit y z && ((0 <=? z) && (z <? w))).
    { intros y z. destruct (Z.leb_spec 0 z); [rewrite field by lia; reflexivity|]. rewrite !Z.testbit_neg_r by lia. reflexivity. }
    rewrite !P.
    destruct C as [[-> ->]|[[-> ->]|[-> ->]]];
      repeat match goal with |- context [0 <=? ?u] => destruct (Z.leb_spec 0 u) | |- context [?u <? w] => destruct (Z.ltb_spec u w) end; try lia;
      rewrite ?andb_false_r, ?andb_true_r, ?orb_false_r, ?orb_false_l; cbn [andb orb]; f_equal; lia. }
  rewrite (G (2 * w) a), (G w b), (G 0 c) by tauto. reflexivity.
Qed.
Theorem C110_unpack_pack : forall w l, 0 <= w -> pack w (unpack w l) = map (fun d => d mod 2 ^ (3 * w)) l.
Proof.
  intros w l W. induction l as [|d l IH]; [reflexivity|]. unfold unpack in *. cbn [map pack]. rewrite IH. f_equal.
  rewrite <- Z.land_ones by lia. apply Z.bits_inj'. intros k K. rewrite field by lia. rewrite !Z.lor_spec, !Z.shiftl_spec by lia.
  assert (P : forall y z, Z.testbit (Z.land (Z.land y (Z.ones w)) (Z.ones w)) z = Z.testbit y z && ((0 <=? z) && (z <? w))).
  { intros y z. destruct (Z.leb_spec 0 z); [rewrite !field by lia; destruct (Z.testbit y z), (z <? w); reflexivity|]. rewrite !Z.testbit_neg_r by lia. reflexivity. }
  rewrite !P.
  destruct (Z.ltb_spec k (3 * w)) as [H3|H3]; rewrite ?andb_true_r, ?andb_false_r;
    repeat match goal with |- context [0 <=? ?u] => destruct (Z.leb_spec 0 u) | |- context [?u <? w] => destruct (Z.ltb_spec u w) end; try lia;
    rewrite ?andb_false_r, ?andb_true_r, ?orb_false_r, ?orb_false_l; cbn [andb orb]; rewrite ?andb_false_r, ?andb_true_r, ?orb_false_r;
    rewrite ?Z.shiftr_spec by lia; try reflexivity; f_equal; lia.
Qed.
Example C110_ex : pack 8 [(1, 2, 3); (300, -1, 255)] = [66051; 2949119] /\ unpack 8 [66051; 2949119] = [(1, 2, 3); (44, 255, 255)].
Proof. vm_compute. auto. Qed.

Print Assumptions C109_half_to_pixel.
Print Assumptions C109_pixel_to_half.
Print Assumptions C109_decode.
Print Assumptions C110_pack_unpack.
Print Assumptions C110_unpack_pack.
