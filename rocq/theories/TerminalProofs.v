(** The terminal's video side. *)
From Coq Require Import ZArith List Bool Lia Arith.
From Verif Require Import Hdl TerminalModel.
Import ListNotations.
Open Scope nat_scope.

Lemma succ_mod : forall a b, b <> 0 -> (a + 1) mod b = if a mod b =? b - 1 then 0 else a mod b + 1.
Proof.
  intros a b H. pose proof (Nat.mod_upper_bound a b H) as U. pose proof (Nat.div_mod a b H) as E.
  destruct (Nat.eqb_spec (a mod b) (b - 1)) as [Q | Q].
  - replace (a + 1) with ((a / b + 1) * b) by nia. apply Nat.mod_mul. exact H.
  - symmetry. apply (Nat.mod_unique _ _ (a / b)); lia.
Qed.
Lemma succ_div : forall a b, b <> 0 -> (a + 1) / b = a / b + (if a mod b =? b - 1 then 1 else 0).
Proof.
  intros a b H. pose proof (Nat.mod_upper_bound a b H) as U. pose proof (Nat.div_mod a b H) as E.
  destruct (Nat.eqb_spec (a mod b) (b - 1)) as [Q | Q].
  - replace (a + 1) with ((a / b + 1) * b) by nia. apply Nat.div_mul. exact H.
  - symmetry. apply (Nat.div_unique _ _ _ (a mod b + 1)); lia.
Qed.

Section Video.
Variable mem : nat -> Z -> Z.
Let st := tm_run mem.

Lemma tm_S : forall n, st (S n) = tm_step (st n) (mem n).
Proof. reflexivity. Qed.

(** Column and line of a clock. *)
Definition col (n : nat) : nat := n mod 801.
Definition row (n : nat) : nat := (n / 801) mod 521.
(** First clock of a frame other than the first one. *)
Definition wrap (n : nat) : bool := (col n =? 0) && (row n =? 0) && negb (n =? 0).

Lemma col_lt : forall n, col n < 801.
Proof. intros n. apply Nat.mod_upper_bound. lia. Qed.
Lemma row_lt : forall n, row n < 521.
Proof. intros n. apply Nat.mod_upper_bound. lia. Qed.
Lemma col_S : forall n, col (S n) = if col n =? 800 then 0 else col n + 1.
Proof. intros n. unfold col. rewrite <- Nat.add_1_r. rewrite succ_mod by lia. reflexivity. Qed.
Lemma row_S : forall n, row (S n) = if col n =? 800 then (if row n =? 520 then 0 else row n + 1) else row n.
Proof.
  intros n. unfold row, col. rewrite <- Nat.add_1_r. rewrite succ_div by lia. change (801 - 1) with 800.
  destruct (n mod 801 =? 800); [|rewrite Nat.add_0_r; reflexivity]. rewrite succ_mod by lia. reflexivity.
Qed.

Lemma tm_count : forall n, tm_pc (st n) = Z.of_nat (col n) /\
  tm_lc (st n) = if wrap n then 521%Z else Z.of_nat (row n).
Proof.
  induction n as [|n [IP IL]].
  - unfold col, row, wrap. rewrite Nat.mod_0_l, Nat.div_0_l, Nat.mod_0_l by lia. split; reflexivity.
  - rewrite tm_S. cbn [tm_step tm_pc tm_lc]. rewrite IP, IL. replace (wrap (S n)) with ((col (S n) =? 0) && (row (S n) =? 0)) by (unfold wrap; cbn [Nat.eqb negb]; rewrite andb_true_r; reflexivity). rewrite col_S, row_S.
    pose proof (col_lt n) as C. pose proof (row_lt n) as R. unfold H_FRONT_PORCH, V_FRONT_PORCH.
    destruct (Nat.eqb_spec (col n) 800) as [Q | Q].
    + replace (Z.of_nat (col n) =? 800)%Z with true by (symmetry; apply Z.eqb_eq; lia). split; [reflexivity|].
      assert (W : wrap n = false) by (unfold wrap; replace (col n =? 0) with false by (symmetry; apply Nat.eqb_neq; lia); reflexivity).
      rewrite W. replace (Z.of_nat (row n) =? 521)%Z with false by (symmetry; apply Z.eqb_neq; lia).
      unfold trunc. rewrite Z.mod_small by (change (2 ^ 10)%Z with 1024%Z; lia).
      destruct (Nat.eqb_spec (row n) 520) as [E | E]; cbn [Nat.eqb andb negb]; [lia|].
      replace (row n + 1 =? 0) with false by (symmetry; apply Nat.eqb_neq; lia). cbn [andb]. lia.
    + replace (Z.of_nat (col n) =? 800)%Z with false by (symmetry; apply Z.eqb_neq; lia).
      replace (col n + 1 =? 0) with false by (symmetry; apply Nat.eqb_neq; lia). cbn [andb]. split.
      * unfold trunc. rewrite Z.mod_small by (change (2 ^ 10)%Z with 1024%Z; lia). lia.
      * destruct (wrap n) eqn:W; cbn [Z.eqb Pos.eqb].
        -- unfold wrap in W. apply andb_true_iff in W as [W _]. apply andb_true_iff in W as [_ W]. apply Nat.eqb_eq in W. rewrite W. reflexivity.
        -- replace (Z.of_nat (row n) =? 521)%Z with false by (symmetry; apply Z.eqb_neq; lia). reflexivity.
Qed.

Lemma tm_hsync : forall n, tm_hs (st (S n)) = (96 <=? col n).
Proof.
  induction n as [|n IH].
  - reflexivity.
  - rewrite tm_S. cbn [tm_step tm_hs]. rewrite IH. destruct (tm_count (S n)) as [-> _]. unfold H_SYNC_PULSE, H_BACK_PORCH.
    pose proof (col_S n) as E. pose proof (col_lt n) as C.
    destruct (Nat.eqb_spec (col n) 800); destruct (Z.ltb_spec (Z.of_nat (col (S n))) 96), (Z.ltb_spec (Z.of_nat (col (S n))) 144),
      (Nat.leb_spec 96 (col (S n))), (Nat.leb_spec 96 (col n)); lia || reflexivity.
Qed.

Lemma tm_vsync : forall n, tm_vs (st (S n)) = (2 <=? row n) || wrap n.
Proof.
  induction n as [|n IH].
  - reflexivity.
  - rewrite tm_S. cbn [tm_step tm_vs]. rewrite IH. destruct (tm_count (S n)) as [_ ->]. unfold V_SYNC_PULSE, V_BACK_PORCH.
    destruct (wrap (S n)) eqn:W.
    + cbn [Z.ltb Z.compare Pos.compare Pos.compare_cont]. rewrite orb_true_r.
      unfold wrap in W. rewrite col_S, row_S in W. destruct (Nat.eqb_spec (col n) 800) as [Q | Q].
      * destruct (Nat.eqb_spec (row n) 520) as [E | E]; [rewrite E; reflexivity|].
        replace (row n + 1 =? 0) with false in W by (symmetry; apply Nat.eqb_neq; lia). discriminate W.
      * replace (col n + 1 =? 0) with false in W by (symmetry; apply Nat.eqb_neq; lia). discriminate W.
    + rewrite orb_false_r. pose proof (row_S n) as E. 
      destruct (Z.ltb_spec (Z.of_nat (row (S n))) 2), (Z.ltb_spec (Z.of_nat (row (S n))) 31), (Nat.leb_spec 2 (row (S n))); try lia; try reflexivity.
      destruct (Nat.leb_spec 2 (row n)) as [H2 | H2]; [reflexivity|].
      destruct (col n =? 800); [destruct (Nat.eqb_spec (row n) 520)|]; lia.
Qed.

Lemma tm_active_at : forall n, tm_active (st n) = (31 <=? row n) && (row n <? 511) && (144 <=? col n) && (col n <? 784).
Proof.
  intros n. unfold tm_active, V_BACK_PORCH, V_DATA, H_BACK_PORCH, H_DATA. destruct (tm_count n) as [-> ->].
  destruct (wrap n) eqn:W.
  - unfold wrap in W. apply andb_true_iff in W as [W _]. apply andb_true_iff in W as [_ W]. apply Nat.eqb_eq in W. rewrite W. reflexivity.
  - destruct (Z.leb_spec 31 (Z.of_nat (row n))), (Nat.leb_spec 31 (row n)); try lia;
    destruct (Z.ltb_spec (Z.of_nat (row n)) 511), (Nat.ltb_spec (row n) 511); try lia;
    destruct (Z.leb_spec 144 (Z.of_nat (col n))), (Nat.leb_spec 144 (col n)); try lia;
    destruct (Z.ltb_spec (Z.of_nat (col n)) 784), (Nat.ltb_spec (col n) 784); try lia; reflexivity.
Qed.

(** * One character cell: eight clocks starting with fx = 0 *)
Hypothesis bytes : forall n a, (0 <= mem n a < 256)%Z.

Section Cell.
Variables (T : nat) (a fl : Z).
Hypothesis Ha : (0 <= a < 16000)%Z.
Hypothesis Hf : (0 <= fl < 16)%Z.
Hypothesis Hpc : forall j, j < 8 -> (tm_pc (st (T + j)) =? 135)%Z = false.
Hypothesis Hfl : forall j, j < 8 -> tm_fline (st (T + j)) = fl.
Hypothesis Hfx : tm_fx (st T) = 0%Z.
Hypothesis Hta : tm_ta (st T) = a.

Let S_at j : st (T + S j) = tm_step (st (T + j)) (mem (T + j)).
Proof. rewrite Nat.add_succ_r. reflexivity. Qed.

Lemma fx_at : forall j, j < 8 -> tm_fx (st (T + j)) = Z.of_nat j.
Proof.
  induction j as [|j IH]; intros H; [rewrite Nat.add_0_r; exact Hfx|].
  rewrite S_at. cbn [tm_step tm_fx]. change (H_BACK_PORCH - 9)%Z with 135%Z. rewrite Hpc by lia. rewrite IH by lia.
  replace (Z.of_nat j =? 7)%Z with false by (symmetry; apply Z.eqb_neq; lia).
  unfold trunc. rewrite Z.mod_small by (change (2 ^ 3)%Z with 8%Z; lia). lia.
Qed.

Definition c_code : Z := mem (T + 3) a.
Definition c_attr : Z := mem (T + 4) (a + 1)%Z.
Definition c_font : Z := mem (T + 5) (4800 + 16 * c_code + fl)%Z.

Ltac go := rewrite S_at; cbn [tm_step tm_ta tm_adr tm_madr tm_color tm_ci tm_nbyte tm_nfg tm_fg tm_bg tm_fbyte tm_fx];
  change (H_BACK_PORCH - 9)%Z with 135%Z; rewrite ?Hpc by lia; rewrite ?fx_at by lia;
  cbn [Z.of_nat Pos.of_succ_nat Pos.succ Z.eqb Pos.eqb orb].

Lemma ta1 : tm_ta (st (T + 1)) = a.
Proof. go. rewrite Nat.add_0_r. exact Hta. Qed.
Lemma ta2 : tm_ta (st (T + 2)) = (a + 1)%Z.
Proof. go. rewrite ta1. apply trunc_id. change (2 ^ 16)%Z with 65536%Z. lia. Qed.
Lemma ta3 : tm_ta (st (T + 3)) = (a + 2)%Z.
Proof. go. rewrite ta2. rewrite trunc_id; [lia|]. change (2 ^ 16)%Z with 65536%Z. lia. Qed.
Lemma ta8 : tm_ta (st (T + 8)) = (a + 2)%Z.
Proof. go. go. go. go. go. exact ta3. Qed.
Lemma fx8 : tm_fx (st (T + 8)) = 0%Z.
Proof. go. reflexivity. Qed.

Lemma adr2 : tm_adr (st (T + 2)) = a.
Proof. go. rewrite ta1. apply trunc_id. change (2 ^ 14)%Z with 16384%Z. lia. Qed.
Lemma adr3 : tm_adr (st (T + 3)) = (a + 1)%Z.
Proof. go. rewrite ta2. apply trunc_id. change (2 ^ 14)%Z with 16384%Z. lia. Qed.
Lemma madr3 : tm_madr (st (T + 3)) = a.
Proof. go. exact adr2. Qed.
Lemma madr4 : tm_madr (st (T + 4)) = (a + 1)%Z.
Proof. go. exact adr3. Qed.
Lemma adr4 : tm_adr (st (T + 4)) = (4800 + 16 * c_code + fl)%Z.
Proof.
  go. rewrite madr3, Hfl by lia. fold c_code. pose proof (bytes (T + 3) a) as B. fold c_code in B.
  apply trunc_id. change (2 ^ 14)%Z with 16384%Z. unfold FONT_ADDR. lia.
Qed.
Lemma madr5 : tm_madr (st (T + 5)) = (4800 + 16 * c_code + fl)%Z.
Proof. go. exact adr4. Qed.
Lemma color5 : tm_color (st (T + 5)) = c_attr.
Proof. go. rewrite madr4. reflexivity. Qed.
Lemma color6 : tm_color (st (T + 6)) = c_attr.
Proof. go. exact color5. Qed.
Lemma ci6 : tm_ci (st (T + 6)) = (c_attr mod 16)%Z.
Proof. go. rewrite color5. unfold slice. rewrite Z.pow_0_r, Z.div_1_r. reflexivity. Qed.
Lemma ci7 : tm_ci (st (T + 7)) = (c_attr / 16)%Z.
Proof.
  go. rewrite color6. unfold slice. change (2 ^ 4)%Z with 16%Z. pose proof (bytes (T + 4) (a + 1)%Z) as B. fold c_attr in B.
  apply Z.mod_small. split; [apply Z.div_pos; lia|apply Z.div_lt_upper_bound; lia].
Qed.
Lemma nbyte7 : tm_nbyte (st (T + 7)) = c_font.
Proof. go. go. rewrite madr5. reflexivity. Qed.
Lemma nfg7 : tm_nfg (st (T + 7)) = tm_lookup (c_attr mod 16).
Proof. go. rewrite ci6. reflexivity. Qed.

Lemma cell_loaded : tm_fbyte (st (T + 8)) = c_font /\ tm_fg (st (T + 8)) = tm_lookup (c_attr mod 16) /\
  tm_bg (st (T + 8)) = tm_lookup (c_attr / 16).
Proof. split; [|split]; go; [exact nbyte7|exact nfg7|rewrite ci7; reflexivity]. Qed.
End Cell.

(** Showing a cell: eight active clocks starting with fx = 0. *)
Section Show.
Variables (T : nat) (b fg bg : Z).
Hypothesis Hb : (0 <= b < 256)%Z.
Hypothesis Hpc : forall j, j < 8 -> (tm_pc (st (T + j)) =? 135)%Z = false.
Hypothesis Hact : forall j, j < 8 -> tm_active (st (T + j)) = true.
Hypothesis Hfx : tm_fx (st T) = 0%Z.
Hypothesis H0 : tm_fbyte (st T) = b /\ tm_fg (st T) = fg /\ tm_bg (st T) = bg.

Lemma show_at : forall j, j < 8 ->
  tm_fbyte (st (T + j)) = ((b * 2 ^ Z.of_nat j) mod 256)%Z /\ tm_fg (st (T + j)) = fg /\ tm_bg (st (T + j)) = bg.
Proof.
  destruct H0 as (B0 & F0 & G0). induction j as [|j IH]; intros H.
  - rewrite Nat.add_0_r. split; [|split; assumption]. rewrite B0. change (2 ^ Z.of_nat 0)%Z with 1%Z. rewrite Z.mul_1_r, Z.mod_small; [reflexivity|exact Hb].
  - destruct (IH ltac:(lia)) as (IB & IF & IG). rewrite Nat.add_succ_r, tm_S. cbn [tm_step tm_fbyte tm_fg tm_bg].
    rewrite (fx_at T Hpc Hfx) by lia. replace (Z.of_nat j =? 7)%Z with false by (symmetry; apply Z.eqb_neq; lia).
    rewrite Hact, IB by lia. split; [|split; assumption].
    unfold trunc. change (2 ^ 8)%Z with 256%Z. rewrite Z.mul_mod_idemp_r by lia. f_equal.
    rewrite Nat2Z.inj_succ, Z.pow_succ_r by lia. lia.
Qed.

Lemma show_pixel : forall j, j < 8 ->
  tm_rgb (st (T + j + 1)) = if Z.testbit b (7 - Z.of_nat j) then fg else bg.
Proof.
  intros j H. replace (T + j + 1) with (S (T + j)) by lia. rewrite tm_S. cbn [tm_step tm_rgb].
  rewrite Hact by exact H. destruct (show_at j H) as (-> & -> & ->).
  change 256%Z with (2 ^ 8)%Z. rewrite Z.mod_pow2_bits_low by lia. rewrite Z.mul_pow2_bits by lia. reflexivity.
Qed.
End Show.

(** * A line of the picture *)
Section Line.
Variable f : nat.
Definition line_start (l : nat) : nat := (f * 521 + l) * 801.

Lemma line_pos : forall l c, l < 521 -> c < 801 -> col (line_start l + c) = c /\ row (line_start l + c) = l.
Proof.
  intros l c Hl Hc. unfold col, row, line_start. split.
  - rewrite Nat.add_comm, Nat.mod_add by lia. apply Nat.mod_small. exact Hc.
  - rewrite Nat.add_comm, Nat.div_add by lia. rewrite Nat.div_small by exact Hc.
    replace (0 + (f * 521 + l)) with (l + f * 521) by lia. rewrite Nat.mod_add by lia. apply Nat.mod_small. exact Hl.
Qed.

Lemma line_count : forall l c, 0 < l < 521 -> c < 801 ->
  tm_pc (st (line_start l + c)) = Z.of_nat c /\ tm_lc (st (line_start l + c)) = Z.of_nat l.
Proof.
  intros l c Hl Hc. destruct (line_pos l c ltac:(lia) Hc) as [E1 E2]. destruct (tm_count (line_start l + c)) as [-> ->].
  unfold wrap. rewrite E1, E2. replace (l =? 0) with false by (symmetry; apply Nat.eqb_neq; lia). rewrite andb_false_r. split; reflexivity.
Qed.

(** Font line and text address do not change within a line. *)
Lemma line_const : forall l c, 0 < l < 521 -> l <> 30 -> c < 801 ->
  tm_fline (st (line_start l + c)) = tm_fline (st (line_start l)) /\ tm_tas (st (line_start l + c)) = tm_tas (st (line_start l)).
Proof.
  intros l c Hl N30. induction c as [|c IH]; intros Hc; [rewrite Nat.add_0_r; split; reflexivity|].
  destruct (IH ltac:(lia)) as [IF IT]. rewrite Nat.add_succ_r, tm_S. cbn [tm_step tm_fline tm_tas].
  destruct (line_count l c Hl ltac:(lia)) as [-> ->]. unfold V_BACK_PORCH, H_FRONT_PORCH.
  replace (Z.of_nat l =? 31 - 1)%Z with false by (symmetry; apply Z.eqb_neq; lia).
  replace (Z.of_nat c =? 800)%Z with false by (symmetry; apply Z.eqb_neq; lia). cbn [andb]. split; assumption.
Qed.

Lemma line_start_S : forall l, line_start (S l) = S (line_start l + 800).
Proof. intros l. unfold line_start. lia. Qed.

Lemma line_fline : forall y, y <= 480 ->
  tm_fline (st (line_start (31 + y))) = Z.of_nat (y mod 16) /\ tm_tas (st (line_start (31 + y))) = (160 * Z.of_nat (y / 16))%Z.
Proof.
  induction y as [|y IH]; intros Hy.
  - change (31 + 0) with (S 30). rewrite line_start_S, tm_S. cbn [tm_step tm_fline tm_tas].
    destruct (line_count 30 800 ltac:(lia) ltac:(lia)) as [_ ->]. split; reflexivity.
  - destruct (IH ltac:(lia)) as [IF IT]. rewrite Nat.add_succ_r, line_start_S, tm_S. cbn [tm_step tm_fline tm_tas].
    destruct (line_count (31 + y) 800 ltac:(lia) ltac:(lia)) as [-> ->]. unfold V_BACK_PORCH, H_FRONT_PORCH.
    replace (Z.of_nat (31 + y) =? 31 - 1)%Z with false by (symmetry; apply Z.eqb_neq; lia).
    destruct (line_const (31 + y) 800 ltac:(lia) ltac:(lia) ltac:(lia)) as [-> ->]. rewrite IF, IT.
    change (Z.of_nat 800 =? 800)%Z with true. cbn [andb]. replace (S y) with (y + 1) by lia. rewrite succ_mod, succ_div by lia.
    pose proof (Nat.mod_upper_bound y 16 ltac:(lia)) as U.
    assert (D : y / 16 <= 30) by (apply Nat.div_le_upper_bound; lia).
    destruct (Nat.eqb_spec (y mod 16) (16 - 1)) as [Q | Q].
    + rewrite Q. cbn [Z.of_nat Nat.sub Pos.of_succ_nat Pos.succ Z.eqb Pos.eqb]. split; [reflexivity|].
      rewrite trunc_id; [lia|]. change (2 ^ 16)%Z with 65536%Z. lia.
    + replace (Z.of_nat (y mod 16) =? 15)%Z with false by (symmetry; apply Z.eqb_neq; lia). split; [|rewrite Nat.add_0_r; reflexivity].
      rewrite trunc_id; [lia|]. change (2 ^ 4)%Z with 16%Z. lia.
Qed.

Variable y : nat.
Hypothesis Hy : y < 480.
Let L := line_start (31 + y).
Let tas := (160 * Z.of_nat (y / 16))%Z.

Lemma tas_range : (0 <= tas <= 4640)%Z.
Proof. unfold tas. assert (y / 16 < 30) by (apply Nat.div_lt_upper_bound; lia). lia. Qed.

Lemma line_pc : forall c, 136 <= c < 801 -> (tm_pc (st (L + c)) =? 135)%Z = false.
Proof. intros c H. unfold L. destruct (line_count (31 + y) c ltac:(lia) ltac:(lia)) as [-> _]. apply Z.eqb_neq. lia. Qed.

Lemma line_fl : forall c, c < 801 -> tm_fline (st (L + c)) = Z.of_nat (y mod 16).
Proof.
  intros c H. unfold L. destruct (line_const (31 + y) c ltac:(lia) ltac:(lia) H) as [-> _]. apply line_fline. lia.
Qed.

(** Start of cell [k] (loading): column 136 + 8k. *)
Lemma cell_start : forall k, k <= 82 ->
  tm_fx (st (L + 136 + 8 * k)) = 0%Z /\ tm_ta (st (L + 136 + 8 * k)) = (tas + 2 * Z.of_nat k)%Z.
Proof.
  pose proof tas_range as TR. induction k as [|k IH]; intros Hk.
  - replace (L + 136 + 8 * 0) with (S (L + 135)) by lia. rewrite tm_S. cbn [tm_step tm_fx tm_ta].
    unfold L. destruct (line_count (31 + y) 135 ltac:(lia) ltac:(lia)) as [-> _].
    destruct (line_const (31 + y) 135 ltac:(lia) ltac:(lia) ltac:(lia)) as [_ ->].
    destruct (line_fline y ltac:(lia)) as [_ ->]. change (Z.of_nat 135 =? H_BACK_PORCH - 9)%Z with true. cbn iota. fold tas. lia.
  - destruct (IH ltac:(lia)) as [IX IT]. replace (L + 136 + 8 * S k) with (L + 136 + 8 * k + 8) by lia.
    assert (P : forall j, j < 8 -> (tm_pc (st (L + 136 + 8 * k + j)) =? 135)%Z = false).
    { intros j Hj. replace (L + 136 + 8 * k + j) with (L + (136 + 8 * k + j)) by lia. apply line_pc. lia. }
    split.
    + apply (fx8 _ P IX).
    + rewrite (ta8 _ (tas + 2 * Z.of_nat k)%Z ltac:(lia) P IX IT). lia.
Qed.

(** The pixel of column [8k + j]. *)
Lemma line_pixel : forall k j, k < 80 -> j < 8 ->
  let T := L + 136 + 8 * k in
  let a := (tas + 2 * Z.of_nat k)%Z in
  let fl := Z.of_nat (y mod 16) in
  tm_rgb (st (L + 144 + 8 * k + j + 1)) =
    if Z.testbit (c_font T a fl) (7 - Z.of_nat j) then tm_lookup (c_attr T a mod 16) else tm_lookup (c_attr T a / 16).
Proof.
  intros k j Hk Hj T a fl. pose proof tas_range as TR.
  assert (U : y mod 16 < 16) by (apply Nat.mod_upper_bound; lia).
  destruct (cell_start k ltac:(lia)) as [IX IT]. destruct (cell_start (k + 1) ltac:(lia)) as [JX _].
  replace (L + 136 + 8 * (k + 1)) with (L + 144 + 8 * k) in JX by lia.
  assert (P : forall i, i < 8 -> (tm_pc (st (T + i)) =? 135)%Z = false).
  { intros i Hi. unfold T. replace (L + 136 + 8 * k + i) with (L + (136 + 8 * k + i)) by lia. apply line_pc. lia. }
  assert (Q : forall i, i < 8 -> (tm_pc (st (L + 144 + 8 * k + i)) =? 135)%Z = false).
  { intros i Hi. replace (L + 144 + 8 * k + i) with (L + (144 + 8 * k + i)) by lia. apply line_pc. lia. }
  assert (FL : forall i, i < 8 -> tm_fline (st (T + i)) = fl).
  { intros i Hi. unfold T. replace (L + 136 + 8 * k + i) with (L + (136 + 8 * k + i)) by lia. apply line_fl. lia. }
  assert (ACT : forall i, i < 8 -> tm_active (st (L + 144 + 8 * k + i)) = true).
  { intros i Hi. replace (L + 144 + 8 * k + i) with (L + (144 + 8 * k + i)) by lia. rewrite tm_active_at. unfold L.
    destruct (line_pos (31 + y) (144 + 8 * k + i) ltac:(lia) ltac:(lia)) as [-> ->].
    replace (31 <=? 31 + y) with true by (symmetry; apply Nat.leb_le; lia).
    replace (31 + y <? 511) with true by (symmetry; apply Nat.ltb_lt; lia).
    replace (144 <=? 144 + 8 * k + i) with true by (symmetry; apply Nat.leb_le; lia).
    replace (144 + 8 * k + i <? 784) with true by (symmetry; apply Nat.ltb_lt; lia). reflexivity. }
  assert (LD := cell_loaded T a fl ltac:(unfold a; lia) ltac:(unfold fl; lia) P FL IX IT).
  replace (T + 8) with (L + 144 + 8 * k) in LD by (unfold T; lia).
  apply (show_pixel (L + 144 + 8 * k) (c_font T a fl) _ _ (bytes _ _) Q ACT JX LD j Hj).
Qed.
End Line.
End Video.
