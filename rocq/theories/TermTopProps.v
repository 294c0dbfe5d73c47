(** C130: the whole terminal, from the files and the bus to the screen. *)
From Coq Require Import ZArith List Bool Lia Arith.
From Verif Require Import Hdl Trace CdcProofs TerminalModel TerminalProofs TerminalProps TermFiles TermTopModel TermTopProofs.
Import ListNotations.
Open Scope Z_scope.

(** The clocks of the terminal: the bus [wb] is given in sys clocks, [E n] is the instant of vga clock [n]. *)
Record tt_clocks (i : nat -> tt_in) (wb : nat -> wb_in) (E : nat -> nat) : Prop := {
  tc_bus : forall t, tt_sys (i t) = true -> tt_wb (i t) = wb (occurrences (fun t => tt_sys (i t)) 0 t);
  tc_vga : forall n, tt_vga (i (E n)) = true /\ occurrences (fun t => tt_vga (i t)) 0 (E n) = n
}.
(** Sys clocks before vga clock [n]. *)
Definition sys_before (i : nat -> tt_in) (E : nat -> nat) (n : nat) : nat := occurrences (fun t => tt_sys (i t)) 0 (E n).
Lemma sys_before_mono : forall i wb E, tt_clocks i wb E -> forall a b, (a <= b)%nat -> (sys_before i E a <= sys_before i E b)%nat.
Proof.
  intros i wb E [_ HE] a b AB. unfold sys_before. assert (EE : (E a <= E b)%nat).
  { destruct (Nat.le_gt_cases (E a) (E b)) as [|L]; [assumption|]. exfalso.
    pose proof (proj2 (HE a)) as A. pose proof (proj2 (HE b)) as B. destruct (Nat.eq_dec a b) as [->|NE]; [lia|].
    replace (E a) with (E b + (E a - E b))%nat in A by lia. rewrite occ_app in A. lia. }
  replace (E b) with (E a + (E b - E a))%nat by lia. rewrite occ_app. lia.
Qed.

(** Software writes whenever it likes.  A pixel whose three bytes (code, colours, font line) keep their
    values while the terminal fetches them shows what those bytes say; the other bytes may change. *)
Theorem C130_pixel : forall m0 i wb E, (forall a, 0 <= m0 a < 256) -> tt_clocks i wb E -> compliant m0 wb -> in_ram wb ->
  forall f x y, (x < 640)%nat -> (y < 480)%nat ->
  let t := load_at f x y in let c := memory m0 wb in let k0 := sys_before i E (t + 3) in
  (forall a, a = cell_adr x y \/ a = cell_adr x y + 1 \/ a = font_adr (c k0 (cell_adr x y)) (y mod 16) ->
   forall k, (k0 <= k <= S (sys_before i E (t + 5)))%nat -> c k a = c k0 a) ->
  tm_rgb (tt_tm (tt_run m0 i (E (shown_at f x y)))) = text_pixel (c k0) x y.
Proof.
  intros m0 i wb E B0 [HW HE] C R f x y Hx Hy t c k0 HK.
  rewrite (tt_video m0 i E HE).
  assert (BY := tt_mem_bytes m0 B0 i wb HW E).
  rewrite (C56_pixel_changing_ram (tt_mem m0 i E) BY f x y Hx Hy). cbv zeta. fold t.
  pose proof (sys_before_mono i wb E (Build_tt_clocks _ _ _ HW HE)) as MO.
  pose proof (MO (t + 3)%nat (t + 4)%nat ltac:(lia)) as M1. pose proof (MO (t + 4)%nat (t + 5)%nat ltac:(lia)) as M2. fold k0 in M1.
  assert (CELL : 0 <= cell_adr x y /\ cell_adr x y + 1 < 4800).
  { unfold cell_adr. assert (y / 16 < 30)%nat by (apply Nat.div_lt_upper_bound; lia). assert (x / 8 < 80)%nat by (apply Nat.div_lt_upper_bound; lia). lia. }
  assert (RD : forall n a, (t + 3 <= n <= t + 5)%nat -> 0 <= a < 8896 -> (a = cell_adr x y \/ a = cell_adr x y + 1 \/ a = font_adr (c k0 (cell_adr x y)) (y mod 16)) ->
    tt_mem m0 i E n a = c k0 a).
  { intros n a Hn A W. pose proof (MO (t + 3)%nat n ltac:(lia)). pose proof (MO n (t + 5)%nat ltac:(lia)). fold k0 in H.
    apply (tt_mem_is m0 B0 i wb HW E C R n a); [exact A| |]; apply (HK a W); change (before i E n) with (sys_before i E n); lia. }
  assert (CB : 0 <= c k0 (cell_adr x y) < 256).
  { unfold c. rewrite <- (C57_contents m0 wb C R) by lia. apply (tw_bytes m0 B0). }
  pose proof (Nat.mod_upper_bound y 16 ltac:(lia)) as YM.
  rewrite (RD (t + 3)%nat (cell_adr x y)) by (auto; lia). rewrite (RD (t + 4)%nat (cell_adr x y + 1)) by (auto; lia).
  rewrite (RD (t + 5)%nat (font_adr (c k0 (cell_adr x y)) (y mod 16))) by (try lia; try (right; right; reflexivity); unfold font_adr; lia).
  reflexivity.
Qed.
Print Assumptions C130_pixel.

(** Outside the picture the screen is black, whatever software does. *)
Theorem C130_black : forall m0 i wb E, tt_clocks i wb E ->
  forall n, (forall f x y, (x < 640)%nat -> (y < 480)%nat -> (n + 1)%nat <> shown_at f x y) -> tm_rgb (tt_tm (tt_run m0 i (E (n + 1)%nat))) = 0.
Proof.
  intros m0 i wb E [HW HE] n H. rewrite (tt_video m0 i E HE). apply C56_black_elsewhere. exact H.
Qed.
Print Assumptions C130_black.

(** Once software stops writing, every pixel of every frame is that of the bytes it left. *)
Theorem C130_settled : forall m0 i wb E, (forall a, 0 <= m0 a < 256) -> tt_clocks i wb E -> compliant m0 wb -> in_ram wb ->
  forall k1, (forall k, (k1 <= k)%nat -> wbi_we (wb k) = false) ->
  forall f x y, (x < 640)%nat -> (y < 480)%nat -> (k1 <= sys_before i E (load_at f x y + 3))%nat ->
  tm_rgb (tt_tm (tt_run m0 i (E (shown_at f x y)))) = text_pixel (memory m0 wb k1) x y.
Proof.
  intros m0 i wb E B0 CL C R k1 HK f x y Hx Hy HL.
  assert (ST : forall k, (k1 <= k)%nat -> forall a, memory m0 wb k a = memory m0 wb k1 a).
  { intros k Hk a. induction Hk as [|k Hk IH]; [reflexivity|]. cbn [memory]. rewrite (HK k Hk), andb_false_r. exact IH. }
  rewrite (C130_pixel m0 i wb E B0 CL C R f x y Hx Hy).
  - unfold text_pixel. rewrite !(ST _ HL). reflexivity.
  - intros a _ k [K _]. rewrite (ST k) by lia. rewrite (ST _ HL). reflexivity.
Qed.
Print Assumptions C130_settled.

(** What two files say about pixel (x, y), by their own offsets; a file that is not given counts as zeros. *)
Definition file_byte (file : option (list Z)) (k : nat) : Z := match file with None => 0 | Some l => nth k l 0 end.
Definition file_pixel (screen font : option (list Z)) (x y : nat) : Z :=
  let cell := (80 * (y / 16) + x / 8)%nat in
  let code := file_byte screen (2 * cell) in
  let colours := file_byte screen (2 * cell + 1) in
  let line := file_byte font (16 * Z.to_nat code + y mod 16) in
  nth (Z.to_nat (if Z.testbit line (7 - Z.of_nat (x mod 8)) then colours mod 16 else colours / 16)) vga_colours 0.
Definition file_ok (file : option (list Z)) (size : nat) : Prop :=
  match file with None => True | Some l => length l = size /\ (forall b, In b l -> 0 <= b < 256) end.

Lemma file_read : forall file size, file_ok file size -> exists l, read_ram_init_file file size = Some l /\ length l = size /\
  (forall k, (k < size)%nat -> nth k l 0 = file_byte file k) /\ (forall b, In b l -> 0 <= b < 256).
Proof.
  intros [l|] size OK; cbn [read_ram_init_file file_byte].
  - destruct OK as [L B]. exists l. rewrite L, Nat.eqb_refl. auto.
  - exists (repeat 0 size). split; [reflexivity|]. split; [apply repeat_length|]. split; [intros k K; apply nth_repeat|].
    intros b H. apply repeat_spec in H. lia.
Qed.

(** The terminal is built exactly if both files have the right size. *)
Theorem C130_built : forall screen font,
  (exists l, terminal_init screen font = Some l) <->
  (forall l, screen = Some l -> length l = 4800%nat) /\ (forall l, font = Some l -> length l = 4096%nat).
Proof.
  intros screen font. unfold terminal_init, read_ram_init_file. split.
  - intros [l H]. split; intros l' ->.
    + destruct (Nat.eqb_spec (length l') 4800) as [|N]; [assumption|discriminate H].
    + destruct (match screen with None => _ | Some _ => _ end); [|discriminate H]. destruct (Nat.eqb_spec (length l') 4096) as [|N]; [assumption|discriminate H].
  - intros [A B]. destruct screen as [s|], font as [g|]; rewrite ?(A _ eq_refl), ?(B _ eq_refl), ?Nat.eqb_refl; eexists; reflexivity.
Qed.
Print Assumptions C130_built.

(** Until software writes something, the screen shows what the files say, frame after frame. *)
Theorem C130_power_up : forall screen font, file_ok screen 4800 -> file_ok font 4096 ->
  exists l, terminal_init screen font = Some l /\
  forall i wb E, tt_clocks i wb E -> compliant (ram_of l) wb -> in_ram wb ->
  forall f x y, (x < 640)%nat -> (y < 480)%nat ->
  (forall k, (k <= sys_before i E (load_at f x y + 5))%nat -> wbi_we (wb k) = false) ->
  tm_rgb (tt_tm (tt_run (ram_of l) i (E (shown_at f x y)))) = file_pixel screen font x y.
Proof.
  intros screen font OS OF. destruct (file_read screen 4800 OS) as (s & S1 & S2 & S3 & S4). destruct (file_read font 4096 OF) as (g & G1 & G2 & G3 & G4).
  exists (s ++ g). split; [unfold terminal_init; rewrite S1, G1; reflexivity|].
  intros i wb E CL C R f x y Hx Hy HK.
  assert (B0 : forall a, 0 <= ram_of (s ++ g) a < 256).
  { intros a. unfold ram_of. destruct (Nat.lt_ge_cases (Z.to_nat a) (length (s ++ g))) as [L|L]; [|rewrite nth_overflow by exact L; lia].
    pose proof (nth_In (s ++ g) 0 L) as I. apply in_app_or in I as [I|I]; auto. }
  assert (ST : forall k a, (k <= S (sys_before i E (load_at f x y + 5)))%nat -> memory (ram_of (s ++ g)) wb k a = ram_of (s ++ g) a).
  { induction k as [|k IH]; intros a K; [reflexivity|]. cbn [memory]. rewrite (HK k ltac:(lia)), andb_false_r. apply IH. lia. }
  pose proof (sys_before_mono i wb E CL (load_at f x y + 3)%nat (load_at f x y + 5)%nat ltac:(lia)) as MO.
  rewrite (C130_pixel _ i wb E B0 CL C R f x y Hx Hy).
  - set (cell := (80 * (y / 16) + x / 8)%nat).
    assert (CL8 : (cell < 2400)%nat).
    { unfold cell. assert (y / 16 < 30)%nat by (apply Nat.div_lt_upper_bound; lia). assert (x / 8 < 80)%nat by (apply Nat.div_lt_upper_bound; lia). lia. }
    assert (SB : forall k, (k < 4800)%nat -> ram_of (s ++ g) (Z.of_nat k) = file_byte screen k).
    { intros k K. unfold ram_of. rewrite Nat2Z.id, app_nth1 by lia. apply S3. exact K. }
    assert (FB : forall k, (k < 4096)%nat -> ram_of (s ++ g) (4800 + Z.of_nat k) = file_byte font k).
    { intros k K. unfold ram_of. replace (Z.to_nat (4800 + Z.of_nat k)) with (4800 + k)%nat by lia. rewrite app_nth2 by lia. replace (4800 + k - length s)%nat with k by lia. apply G3. exact K. }
    unfold text_pixel, cell_pixel, file_pixel. cbv zeta. fold cell. rewrite !ST by lia.
    change (cell_adr x y) with (Z.of_nat (2 * cell)). replace (Z.of_nat (2 * cell) + 1) with (Z.of_nat (2 * cell + 1)) by lia. rewrite !SB by lia.
    assert (CB : 0 <= file_byte screen (2 * cell) < 256) by (rewrite <- SB by lia; apply B0). pose proof (Nat.mod_upper_bound y 16 ltac:(lia)) as YM.
    replace (font_adr (file_byte screen (2 * cell)) (y mod 16)) with (4800 + Z.of_nat (16 * Z.to_nat (file_byte screen (2 * cell)) + y mod 16)) by (unfold font_adr; lia).
    rewrite FB by lia. reflexivity.
  - intros a _ k K. rewrite !ST by lia. reflexivity.
Qed.
Print Assumptions C130_power_up.

(** The files that come with the terminal are accepted. *)
Lemma shipped_ok : file_ok (Some screen_init_bin) 4800 /\ file_ok (Some cp437_bin) 4096.
Proof.
  assert (B : forall l, forallb (fun b => (0 <=? b) && (b <? 256)) l = true -> forall b, In b l -> 0 <= b < 256).
  { intros l H b I. rewrite forallb_forall in H. specialize (H b I). lia. }
  split; (split; [vm_compute; reflexivity|apply B; vm_compute; reflexivity]).
Qed.
(** The cells of the test image that show the character [c] in colours one can tell apart. *)
Definition test_cell (c : Z) (k : nat) : bool :=
  (nth (2 * k) screen_init_bin 0 =? c) && negb (nth (2 * k + 1) screen_init_bin 0 mod 16 =? nth (2 * k + 1) screen_init_bin 0 / 16).
Fixpoint pairs (l : list Z) : list (Z * Z) := match l with a :: b :: r => (a, b) :: pairs r | _ => [] end.
Lemma pairs_nth : forall n l, length l = (2 * n)%nat -> length (pairs l) = n /\
  forall k, (k < n)%nat -> nth k (pairs l) (0, 0) = (nth (2 * k) l 0, nth (2 * k + 1) l 0).
Proof.
  induction n as [|n IH]; intros l L.
  - destruct l; [|discriminate L]. split; [reflexivity|]. intros k K. lia.
  - destruct l as [|a [|b l]]; cbn [length] in L; try lia. destruct (IH l ltac:(lia)) as [I1 I2]. cbn [pairs length]. rewrite I1. split; [reflexivity|].
    intros [|k] K; [reflexivity|]. cbn [nth]. rewrite (I2 k) by lia. replace (2 * S k)%nat with (S (S (2 * k))) by lia. replace (S (S (2 * k)) + 1)%nat with (S (S (2 * k + 1))) by lia. reflexivity.
Qed.
Lemma test_cells : forall c, 0 <= c < 256 -> exists k, (k < 2400)%nat /\ test_cell c k = true.
Proof.
  intros c Hc.
  assert (A : existsb (fun p => (fst p =? c) && negb (snd p mod 16 =? snd p / 16)) (pairs screen_init_bin) = true).
  { apply (forallb_zrange 0 256 (fun c => existsb (fun p => (fst p =? c) && negb (snd p mod 16 =? snd p / 16)) (pairs screen_init_bin))); [vm_compute; reflexivity|exact Hc]. }
  apply existsb_exists in A as (p & I & T). apply (In_nth _ _ (0, 0)) in I as (k & K & P).
  destruct (pairs_nth 2400 screen_init_bin (proj1 (proj1 shipped_ok))) as [P1 P2]. rewrite P1 in K. rewrite (P2 k K) in P. subst p. cbn [fst snd] in T.
  exists k. split; [exact K|exact T].
Qed.
(** The terminal as it is, without any software, is a test image of the font: every one of the 256 characters can be read
    in some cell, line by line and dot by dot, in every frame. *)
Theorem C130_test_image : exists l, terminal_init (Some screen_init_bin) (Some cp437_bin) = Some l /\
  forall i wb E, tt_clocks i wb E -> compliant (ram_of l) wb -> in_ram wb -> (forall k, wbi_we (wb k) = false) ->
  forall c, 0 <= c < 256 -> exists cx cy fg bg, (cx < 80)%nat /\ (cy < 30)%nat /\ fg <> bg /\
  forall f dx dy, (dx < 8)%nat -> (dy < 16)%nat ->
  tm_rgb (tt_tm (tt_run (ram_of l) i (E (shown_at f (8 * cx + dx) (16 * cy + dy))))) =
  if Z.testbit (nth (16 * Z.to_nat c + dy) cp437_bin 0) (7 - Z.of_nat dx) then fg else bg.
Proof.
  destruct shipped_ok as [O1 O2]. destruct (C130_power_up _ _ O1 O2) as (l & L & P). exists l. split; [exact L|].
  intros i wb E CL C R HK c Hc. destruct (test_cells c Hc) as (k & Hk & T). unfold test_cell in T. apply andb_true_iff in T as [T1 T2].
  apply Z.eqb_eq in T1. apply negb_true_iff, Z.eqb_neq in T2.
  assert (A : 0 <= nth (2 * k + 1) screen_init_bin 0 < 256).
  { apply (proj2 O1), nth_In. rewrite (proj1 O1). lia. }
  set (at_k := nth (2 * k + 1) screen_init_bin 0) in *.
  assert (VC : forall a b, 0 <= a < 16 -> 0 <= b < 16 -> a <> b -> nth (Z.to_nat a) vga_colours 0 <> nth (Z.to_nat b) vga_colours 0).
  { intros a b Ha Hb NE EQ. apply NE.
    assert (Q : forallb (fun a => forallb (fun b => (a =? b) || negb (nth (Z.to_nat a) vga_colours 0 =? nth (Z.to_nat b) vga_colours 0)) (zrange 0 16)) (zrange 0 16) = true) by (vm_compute; reflexivity).
    pose proof (forallb_zrange 0 16 _ Q a Ha) as Qa. cbv beta in Qa. pose proof (forallb_zrange 0 16 _ Qa b Hb) as Qb. cbv beta in Qb.
    rewrite EQ, Z.eqb_refl in Qb. cbn [negb] in Qb. rewrite orb_false_r in Qb. apply Z.eqb_eq. exact Qb. }
  assert (DM : k = (80 * (k / 80) + k mod 80)%nat) by (apply Nat.div_mod; lia). pose proof (Nat.mod_upper_bound k 80 ltac:(lia)) as KM.
  assert (KD : (k / 80 < 30)%nat) by (apply Nat.div_lt_upper_bound; lia).
  exists (k mod 80)%nat, (k / 80)%nat, (nth (Z.to_nat (at_k mod 16)) vga_colours 0), (nth (Z.to_nat (at_k / 16)) vga_colours 0).
  split; [exact KM|]. split; [exact KD|]. split.
  { apply VC; [apply Z.mod_pos_bound; lia|split; [apply Z.div_pos; lia|apply Z.div_lt_upper_bound; lia]|exact T2]. }
  intros f dx dy Hdx Hdy. rewrite (P i wb E CL C R f (8 * (k mod 80) + dx)%nat (16 * (k / 80) + dy)%nat ltac:(lia) ltac:(lia) ltac:(intros; apply HK)).
  unfold file_pixel. cbv zeta.
  assert (X1 : ((8 * (k mod 80) + dx) / 8 = k mod 80)%nat) by (symmetry; apply (Nat.div_unique _ _ _ dx); lia).
  assert (X2 : ((8 * (k mod 80) + dx) mod 8 = dx)%nat) by (symmetry; apply (Nat.mod_unique _ _ (k mod 80)); lia).
  assert (Y1 : ((16 * (k / 80) + dy) / 16 = k / 80)%nat) by (symmetry; apply (Nat.div_unique _ _ _ dy); lia).
  assert (Y2 : ((16 * (k / 80) + dy) mod 16 = dy)%nat) by (symmetry; apply (Nat.mod_unique _ _ (k / 80)); lia).
  rewrite X1, X2, Y1, Y2, <- DM. cbn [file_byte]. rewrite T1. fold at_k. destruct (Z.testbit _ _); reflexivity.
Qed.
Print Assumptions C130_test_image.

(** * The hypotheses can be met *)
(** The sys clock is half as fast as the vga clock; software writes 0x2a to address 1, the colours of the 'A' of [screen_ex].
    From the first frame on the dots of the 'A' are light green instead of yellow. *)
Definition ex_tt_wb (n : nat) : wb_in :=
  match n with
  | 0%nat | 1%nat => {| wbi_cyc := true; wbi_stb := true; wbi_we := true; wbi_adr := 1; wbi_dat := 0x2a |}
  | _ => {| wbi_cyc := false; wbi_stb := false; wbi_we := false; wbi_adr := 0; wbi_dat := 0 |}
  end.
Definition ex_tt (t : nat) : tt_in := {| tt_sys := Nat.even t; tt_vga := true; tt_wb := ex_tt_wb (t / 2)%nat; tt_new := [true; false; true] |}.
Lemma ex_tt_even : forall t, occurrences (fun t => tt_sys (ex_tt t)) 0 (2 * t) = t /\ occurrences (fun t => tt_sys (ex_tt t)) 0 (2 * t + 1) = S t.
Proof.
  assert (P : forall t, occurrences (fun t => tt_sys (ex_tt t)) 0 (2 * t) = t).
  { induction t as [|t IH]; [reflexivity|]. replace (2 * S t)%nat with (S (S (2 * t))) by lia. cbn [occurrences]. rewrite !Nat.add_0_l, IH. cbn [tt_sys ex_tt].
    rewrite Nat.even_succ, <- Nat.negb_even, Nat.even_mul. cbn. lia. }
  intros t. split; [apply P|]. rewrite Nat.add_1_r. cbn [occurrences]. rewrite Nat.add_0_l, P. cbn [tt_sys ex_tt]. rewrite Nat.even_mul. cbn. lia.
Qed.
Lemma ex_tt_all : forall n, occurrences (fun t => tt_vga (ex_tt t)) 0 n = n.
Proof. induction n as [|n IH]; [reflexivity|]. cbn [occurrences]. rewrite IH. cbn [tt_vga ex_tt]. lia. Qed.
Example C130_case : tt_clocks ex_tt ex_tt_wb (fun n => n) /\ compliant screen_ex ex_tt_wb /\ in_ram ex_tt_wb /\ (forall a, 0 <= screen_ex a < 256) /\
  forall f, tm_rgb (tt_tm (tt_run screen_ex ex_tt (shown_at f 3 0))) = 0x55ff55.
Proof.
  assert (CL : tt_clocks ex_tt ex_tt_wb (fun n => n)).
  { constructor.
    - intros t T. cbn [tt_wb tt_sys ex_tt] in *. apply Nat.even_spec in T as [k ->]. f_equal. replace (2 * k)%nat with (k * 2)%nat at 1 by lia. rewrite Nat.div_mul by lia. symmetry. apply ex_tt_even.
    - intros n. split; [reflexivity|apply ex_tt_all]. }
  assert (CO : compliant screen_ex ex_tt_wb).
  { intros [|[|n]] H A; [reflexivity| |discriminate H]. vm_compute in A. discriminate A. }
  assert (IR : in_ram ex_tt_wb) by (intros [|[|n]]; cbn; lia).
  split; [exact CL|]. split; [exact CO|]. split; [exact IR|]. split; [exact screen_ex_bytes|].
  intros f. rewrite (C130_settled screen_ex ex_tt ex_tt_wb (fun n => n) screen_ex_bytes CL CO IR 2).
  - reflexivity.
  - intros [|[|k]] K; [lia|lia|reflexivity].
  - lia.
  - lia.
  - unfold sys_before. cbv beta. replace (load_at f 3 0 + 3)%nat with (2 * 2 + (load_at f 3 0 - 1))%nat by (unfold load_at; lia).
    rewrite occ_app, (proj1 (ex_tt_even 2)). lia.
Qed.
