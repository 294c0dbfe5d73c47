(** C55-C57: the text terminal. *)
From Coq Require Import ZArith List Bool Lia Arith.
From Verif Require Import Hdl TerminalModel TerminalProofs.
Import ListNotations.
Open Scope nat_scope.

(** * Timing (C55) *)

(** The timing the source documents (core.py:110-119): per line 96 clocks of sync, 48 of back
    porch, 640 of picture and 16 of front porch; per frame 2, 29, 480 and 10 lines. *)
Definition doc_line : nat := 96 + 48 + 640 + 16.
Definition doc_frame : nat := 2 + 29 + 480 + 10.
(** A timing with line length [w]: position [n] of the beam. *)
Definition beam_x (w n : nat) : nat := n mod w.
Definition beam_y (w n : nat) : nat := (n / w) mod doc_frame.

(** The outputs of clock [n+1] are those of beam position [n], for lines that are one clock longer
    than documented (801 clocks).  Vertical sync is two lines long, except that in every frame but
    the first its falling edge comes one clock after the frame's first clock. *)
Theorem C55_sync_partial : forall mem n,
  let s := tm_run mem (n + 1) in
  tm_hs s = (96 <=? beam_x (doc_line + 1) n) /\
  tm_vs s = (2 <=? beam_y (doc_line + 1) n) || ((0 <? n) && (n mod ((doc_line + 1) * doc_frame) =? 0)).
Proof.
  intros mem n s. subst s. rewrite Nat.add_1_r. split; [apply tm_hsync|].
  rewrite tm_vsync. change (beam_y (doc_line + 1) n) with (row n). f_equal.
  unfold wrap. change ((doc_line + 1) * doc_frame) with (801 * 521).
  rewrite Nat.mod_mul_r by lia. fold (col n). fold (row n).
  destruct (Nat.eqb_spec (col n) 0) as [-> | C].
  - destruct (Nat.eqb_spec (row n) 0) as [-> | R].
    + rewrite Nat.mul_0_r. cbn [Nat.add Nat.eqb andb]. destruct n; reflexivity.
    + replace (0 + 801 * row n =? 0) with false by (symmetry; apply Nat.eqb_neq; lia). rewrite (andb_false_r (0 <? n)). reflexivity.
  - replace (col n + 801 * row n =? 0) with false by (symmetry; apply Nat.eqb_neq; lia). rewrite (andb_false_r (0 <? n)). reflexivity.
Qed.

(** Everything outside 480 lines of 640 pixels, starting 144 clocks and 31 lines after the start
    of the sync pulses, is black. *)
Theorem C55_active_area : forall mem n,
  tm_rgb (tm_run mem (n + 1)) <> 0%Z ->
  144 <= beam_x (doc_line + 1) n < 144 + 640 /\ 31 <= beam_y (doc_line + 1) n < 31 + 480.
Proof.
  intros mem n H. rewrite Nat.add_1_r in H. rewrite tm_S in H. cbn [tm_step tm_rgb] in H. rewrite tm_active_at in H.
  change (beam_x (doc_line + 1) n) with (col n). change (beam_y (doc_line + 1) n) with (row n).
  destruct (Nat.leb_spec 31 (row n)), (Nat.ltb_spec (row n) 511), (Nat.leb_spec 144 (col n)), (Nat.ltb_spec (col n) 784);
    cbn [andb] in H; try (exfalso; apply H; reflexivity). lia.
Qed.

(** Constant periods: after the first clock horizontal sync repeats with period 801, after the
    second clock vertical sync repeats with period 521 * 801, and with constant memory the whole
    picture does too (C56). *)
Theorem C55_constant_period : forall mem n k,
  (1 <= n -> tm_hs (tm_run mem (n + k * 801)) = tm_hs (tm_run mem n)) /\
  (2 <= n -> tm_vs (tm_run mem (n + k * (521 * 801))) = tm_vs (tm_run mem n)).
Proof.
  intros mem n k. split; intros H.
  - destruct n as [|n]; [lia|]. replace (S n + k * 801) with (S (n + k * 801)) by lia. rewrite !tm_hsync.
    unfold col. rewrite Nat.mod_add by lia. reflexivity.
  - destruct n as [|[|n]]; try lia. set (m := S n).
    replace (S m + k * (521 * 801)) with (S (m + k * (521 * 801))) by lia. rewrite !tm_vsync.
    assert (C : col (m + k * (521 * 801)) = col m).
    { unfold col. replace (k * (521 * 801)) with ((k * 521) * 801) by lia. apply Nat.mod_add. lia. }
    assert (R : row (m + k * (521 * 801)) = row m).
    { unfold row. replace (k * (521 * 801)) with ((k * 521) * 801) by lia. rewrite Nat.div_add by lia. apply Nat.mod_add. lia. }
    unfold wrap. rewrite C, R. reflexivity.
Qed.

(** The documented positions are not met: a line takes 801 clocks, not 800.  From the first
    clock on, in every line, horizontal sync has not fallen again 800 clocks after it fell. *)
Theorem C55_documented_line_refuted : forall mem k,
  let fall := 801 * k + 1 in
  tm_hs (tm_run mem fall) = false /\
  tm_hs (tm_run mem (fall + doc_line)) = true /\ tm_hs (tm_run mem (fall + doc_line + 1)) = false.
Proof.
  intros mem k fall. subst fall. change doc_line with 800.
  replace (801 * k + 1) with (S (0 + k * 801)) by lia.
  replace (S (0 + k * 801) + 800) with (S (800 + k * 801)) by lia.
  replace (S (800 + k * 801) + 1) with (S (0 + (k + 1) * 801)) by lia.
  rewrite !tm_hsync. unfold col. rewrite !Nat.mod_add by lia. split; [|split]; reflexivity.
Qed.

(** So the documented frame never lines up with the output: no phase makes the outputs follow the
    800-clock timing. *)
Theorem C55_documented_timing_refuted :
  ~ exists phase, forall mem n, tm_hs (tm_run mem (n + 1)) = (96 <=? beam_x doc_line (n + phase)).
Proof.
  intros [p H0]. specialize (H0 (fun _ _ => 0%Z)). assert (DL : doc_line = 800) by reflexivity.
  assert (H : forall n, tm_hs (tm_run (fun _ _ => 0%Z) (n + 1)) = (96 <=? (n + p) mod 800)).
  { intros n. rewrite H0. unfold beam_x. rewrite DL. reflexivity. }
  clear H0 DL.
  assert (A : forall k, 96 <=? (801 * k + p) mod 800 = false).
  { intros k. rewrite <- H. rewrite Nat.add_1_r. rewrite tm_hsync. unfold col. rewrite Nat.mul_comm, Nat.mod_mul by lia. reflexivity. }
  pose proof (Nat.mod_upper_bound p 800 ltac:(lia)) as U.
  specialize (A (800 - p mod 800 + 100)).
  apply Nat.leb_gt in A. revert A.
  replace (801 * (800 - p mod 800 + 100) + p) with (100 + ((800 - p mod 800 + 100) + p / 800 + 1) * 800).
  - rewrite Nat.mod_add by lia. rewrite Nat.mod_small by lia. lia.
  - pose proof (Nat.div_mod p 800 ltac:(lia)). lia.
Qed.

(** * The picture (C56) *)

(** Address of the character code and colour byte of a cell, and of a font line. *)
Definition cell_adr (x y : nat) : Z := Z.of_nat (2 * (80 * (y / 16) + x / 8)).
Definition font_adr (code : Z) (line : nat) : Z := (80 * 30 * 2 + 16 * code + Z.of_nat line)%Z.
(** The sixteen VGA colours as 0xRRGGBB. *)
Definition vga_colours : list Z :=
  [0x000000; 0x0000aa; 0x00aa00; 0x00aaaa; 0xaa0000; 0xaa00aa; 0xaa5500; 0xaaaaaa;
   0x555555; 0x5555ff; 0x55ff55; 0x55ffff; 0xff5555; 0xff55ff; 0xffff55; 0xffffff]%Z.
(** What should be seen at pixel (x, y) given the three bytes of its cell. *)
Definition cell_pixel (x : nat) (colours font_line : Z) : Z :=
  let index := if Z.testbit font_line (7 - Z.of_nat (x mod 8)) then (colours mod 16)%Z else (colours / 16)%Z in
  nth (Z.to_nat index) vga_colours 0%Z.
(** The pixel the text buffer [m] defines. *)
Definition text_pixel (m : Z -> Z) (x y : nat) : Z :=
  cell_pixel x (m (cell_adr x y + 1)%Z) (m (font_adr (m (cell_adr x y)) (y mod 16))).

(** Clock in which pixel (x, y) of frame [f] is on the output. *)
Definition shown_at (f x y : nat) : nat := (f * 521 + 31 + y) * 801 + 144 + x + 1.
(** Clock in which loading its cell starts. *)
Definition load_at (f x y : nat) : nat := (f * 521 + 31 + y) * 801 + 136 + 8 * (x / 8).

(** With a RAM that changes arbitrarily: the code, colours and font line are those in the RAM 3, 4
    and 5 clocks after the load starts. *)
Theorem C56_pixel_changing_ram : forall mem, (forall n a, (0 <= mem n a < 256)%Z) ->
  forall f x y, x < 640 -> y < 480 ->
  let t := load_at f x y in
  let code := mem (t + 3) (cell_adr x y) in
  tm_rgb (tm_run mem (shown_at f x y)) =
    cell_pixel x (mem (t + 4) (cell_adr x y + 1)%Z) (mem (t + 5) (font_adr code (y mod 16))).
Proof.
  intros mem B f x y Hx Hy t code.
  assert (K : x / 8 < 80) by (apply Nat.div_lt_upper_bound; lia).
  assert (J : x mod 8 < 8) by (apply Nat.mod_upper_bound; lia).
  pose proof (line_pixel mem B f y Hy (x / 8) (x mod 8) K J) as P. cbv zeta in P.
  pose proof (Nat.div_mod x 8 ltac:(lia)) as E.
  replace (shown_at f x y) with (line_start f (31 + y) + 144 + 8 * (x / 8) + x mod 8 + 1) by (unfold shown_at, line_start; lia).
  rewrite P. unfold c_font, c_attr, c_code, cell_pixel.
  replace (line_start f (31 + y) + 136 + 8 * (x / 8)) with t by (unfold t, load_at, line_start; lia).
  replace (160 * Z.of_nat (y / 16) + 2 * Z.of_nat (x / 8))%Z with (cell_adr x y) by (unfold cell_adr; lia).
  fold code. change (4800 + 16 * code + Z.of_nat (y mod 16))%Z with (font_adr code (y mod 16)).
  change palette with vga_colours. unfold tm_lookup. change palette with vga_colours.
  destruct (Z.testbit (mem (t + 5) (font_adr code (y mod 16))) (7 - Z.of_nat (x mod 8))); reflexivity.
Qed.

(** With a RAM that does not change while the pixel is produced. *)
Theorem C56_pixel : forall mem m, (forall n a, (0 <= mem n a < 256)%Z) ->
  forall f x y, x < 640 -> y < 480 ->
  (forall n a, load_at f x y <= n < shown_at f x y -> mem n a = m a) ->
  tm_rgb (tm_run mem (shown_at f x y)) = text_pixel m x y.
Proof.
  intros mem m B f x y Hx Hy M. rewrite (C56_pixel_changing_ram mem B f x y Hx Hy). cbv zeta.
  pose proof (Nat.div_mod x 8 ltac:(lia)) as E. pose proof (Nat.mod_upper_bound x 8 ltac:(lia)) as U.
  rewrite !M by (unfold load_at, shown_at; lia). reflexivity.
Qed.

(** Every clock of a frame that is not a pixel's is black: the two cases cover the frame. *)
Theorem C56_black_elsewhere : forall mem n,
  (forall f x y, x < 640 -> y < 480 -> n + 1 <> shown_at f x y) ->
  tm_rgb (tm_run mem (n + 1)) = 0%Z.
Proof.
  intros mem n H. destruct (Z.eq_dec (tm_rgb (tm_run mem (n + 1))) 0) as [E | E]; [exact E|exfalso].
  apply C55_active_area in E. change (beam_x (doc_line + 1) n) with (n mod 801) in E.
  change (beam_y (doc_line + 1) n) with ((n / 801) mod 521) in E. destruct E as [C R].
  apply (H (n / 801 / 521) (n mod 801 - 144) ((n / 801) mod 521 - 31)); try lia.
  unfold shown_at. pose proof (Nat.div_mod n 801 ltac:(lia)). pose proof (Nat.div_mod (n / 801) 521 ltac:(lia)). lia.
Qed.

(** A screen with an 'A' (code 65) whose font line 0 is 0x18, in cell (0, 0), colours 0x1e. *)
Definition screen_ex (a : Z) : Z :=
  (if a =? 0 then 65 else if a =? 1 then 0x1e else if a =? 4800 + 16 * 65 then 0x18 else 0)%Z.
Example screen_ex_bytes : forall a, (0 <= screen_ex a < 256)%Z.
Proof. intros a. unfold screen_ex. destruct (a =? 0)%Z, (a =? 1)%Z, (a =? 4800 + 16 * 65)%Z; lia. Qed.
Example screen_ex_pixels : map (fun x => text_pixel screen_ex x 0) [0; 2; 3; 4; 5; 8] =
  [0x0000aa; 0x0000aa; 0xffff55; 0xffff55; 0x0000aa; 0]%Z.
Proof. vm_compute. reflexivity. Qed.
Example shown_ex : forall f, tm_rgb (tm_run (fun _ => screen_ex) (shown_at f 3 0)) = 0xffff55%Z.
Proof.
  intros f. rewrite (C56_pixel (fun _ => screen_ex) screen_ex); [reflexivity|intros; apply screen_ex_bytes|lia|lia|reflexivity].
Qed.

(** * The bus (C57) *)
Section Bus.
Variable m0 : Z -> Z.
Variable i : nat -> wb_in.
Let st := tw_run m0 i.

(** A master that holds its request until it sees the acknowledge. *)
Definition compliant : Prop := forall n,
  wbi_cyc (i n) && wbi_stb (i n) = true -> tw_ack (st n) = false -> i (S n) = i n.
(** Addresses of the RAM, bytes on the bus. *)
Definition in_ram : Prop := forall n, (0 <= wbi_adr (i n) < 8896 /\ 0 <= wbi_dat (i n) < 256)%Z.
(** An access completes in a clock with cyc, stb and ack. *)
Definition done (n : nat) : bool := wbi_cyc (i n) && wbi_stb (i n) && tw_ack (st n).
(** An access starts in a clock with cyc and stb that follows an idle clock or a completed access. *)
Definition starts (n : nat) : bool :=
  wbi_cyc (i n) && wbi_stb (i n) &&
  match n with O => true | S m => negb (wbi_cyc (i m) && wbi_stb (i m)) || done m end.
(** The byte at [a] after the accesses completed before clock [n]. *)
Fixpoint memory (n : nat) (a : Z) : Z :=
  match n with
  | O => m0 a
  | S k => if done k && wbi_we (i k) && (wbi_adr (i k) =? a)%Z then wbi_dat (i k) else memory k a
  end.

Lemma tw_S : forall n, st (S n) = tw_step (st n) (i n).
Proof. reflexivity. Qed.

Hypothesis C : compliant.
Hypothesis R : in_ram.

Lemma ack_req : forall n, tw_ack (st n) = true ->
  wbi_cyc (i n) && wbi_stb (i n) = true /\ tw_we (st n) = wbi_we (i n) /\
  (wbi_we (i n) = true -> tw_dat (st n) = wbi_dat (i n)) /\ tw_madr (st n) = wbi_adr (i n) /\
  exists k, n = S k /\ tw_ack (st k) = false /\ i n = i k.
Proof.
  intros [|n] H; [discriminate H|]. rewrite tw_S in H |- *. cbn [tw_step tw_ack] in H.
  apply andb_true_iff in H as [H1 H2]. apply negb_true_iff in H2. pose proof (C n H1 H2) as E. rewrite E.
  destruct (R n) as [RA RD]. cbn [tw_step tw_we tw_dat tw_madr]. rewrite H1, H2. cbn [andb negb].
  split; [reflexivity|]. split; [reflexivity|]. split; [intros ->; apply trunc_id; exact RD|].
  split; [apply trunc_id; change (2 ^ 14)%Z with 16384%Z; lia|]. exists n. auto.
Qed.
Lemma no_ack_we : forall n, tw_ack (st n) = false -> tw_we (st n) = false.
Proof. intros [|n] H; [reflexivity|]. rewrite tw_S in *. cbn [tw_step tw_ack tw_we] in *. rewrite H. reflexivity. Qed.

Lemma mem_memory : forall n a, (0 <= a < 8896)%Z -> tw_mem (st n) a = memory n a.
Proof.
  induction n as [|n IH]; intros a Ha; [reflexivity|]. rewrite tw_S. cbn [tw_step tw_mem memory].
  unfold done. destruct (tw_ack (st n)) eqn:A.
  - destruct (ack_req n A) as (Q & W & D & M & _). rewrite Q, W. cbn [andb]. destruct (wbi_we (i n)) eqn:E; [|apply IH; exact Ha].
    destruct (R n) as [RA _]. rewrite trunc_id by (change (2 ^ 14)%Z with 16384%Z; lia). cbn [andb].
    rewrite (Z.eqb_sym a). destruct (wbi_adr (i n) =? a)%Z; [apply D; reflexivity|apply IH; exact Ha].
  - rewrite (no_ack_we n A). rewrite andb_false_r. cbn [andb]. apply IH. exact Ha.
Qed.

(** Every access is acknowledged exactly one clock after it starts, and nothing else is. *)
Theorem C57_ack : forall n, tw_ack (tw_run m0 i (S n)) = starts n.
Proof.
  intros n. change (tw_run m0 i (S n)) with (st (S n)). rewrite tw_S. cbn [tw_step tw_ack]. unfold starts.
  destruct (wbi_cyc (i n) && wbi_stb (i n)) eqn:Q; [|reflexivity]. cbn [andb].
  destruct n as [|n]; [reflexivity|]. unfold done. rewrite tw_S. cbn [tw_step tw_ack].
  destruct (wbi_cyc (i n) && wbi_stb (i n)), (tw_ack (st n)); reflexivity.
Qed.

(** A read returns the last byte written there, or the initial content. *)
Theorem C57_read : forall n, done n = true -> wbi_we (i n) = false ->
  tw_dat_r (tw_run m0 i n) = memory n (wbi_adr (i n)).
Proof.
  intros n D W. change (tw_run m0 i n) with (st n). unfold done in D. apply andb_true_iff in D as [_ A].
  destruct (ack_req n A) as (_ & _ & _ & M & _). unfold tw_dat_r. rewrite M. apply mem_memory. apply R.
Qed.

(** The contents the video side sees are the bytes written, and one clock changes at most the
    address of a completed write. *)
Theorem C57_contents : forall n a, (0 <= a < 8896)%Z -> tw_mem (tw_run m0 i n) a = memory n a.
Proof. exact mem_memory. Qed.

Theorem C57_no_other_address : forall n a, (0 <= a < 8896)%Z ->
  tw_mem (tw_run m0 i (S n)) a <> tw_mem (tw_run m0 i n) a ->
  done n = true /\ wbi_we (i n) = true /\ wbi_adr (i n) = a.
Proof.
  intros n a Ha. change (tw_run m0 i n) with (st n). change (tw_run m0 i (S n)) with (st (S n)).
  rewrite !mem_memory by exact Ha. cbn [memory].
  destruct (done n); cbn [andb]; [|intros X; exfalso; apply X; reflexivity].
  destruct (wbi_we (i n)); cbn [andb]; [|intros X; exfalso; apply X; reflexivity].
  destruct (Z.eqb_spec (wbi_adr (i n)) a) as [-> | N]; [auto|intros X; exfalso; apply X; reflexivity].
Qed.
End Bus.

(** A write of 7 to address 5 (clocks 0-1), then a read of it (clocks 3-4). *)
Definition bus_ex (n : nat) : wb_in :=
  match n with
  | 0 | 1 => {| wbi_cyc := true; wbi_stb := true; wbi_we := true; wbi_adr := 5; wbi_dat := 7 |}
  | 3 | 4 => {| wbi_cyc := true; wbi_stb := true; wbi_we := false; wbi_adr := 5; wbi_dat := 0 |}
  | _ => {| wbi_cyc := false; wbi_stb := false; wbi_we := false; wbi_adr := 0; wbi_dat := 0 |}
  end.
Example bus_ex_compliant : compliant (fun _ => 0%Z) bus_ex /\ in_ram bus_ex.
Proof.
  split.
  - intros [|[|[|[|[|n]]]]] H A; vm_compute in H; try discriminate H; try reflexivity; vm_compute in A; discriminate A.
  - intros [|[|[|[|[|n]]]]]; cbn; lia.
Qed.
Example bus_ex_read : done (fun _ => 0%Z) bus_ex 4 = true /\ tw_dat_r (tw_run (fun _ => 0%Z) bus_ex 4) = 7%Z.
Proof. split; reflexivity. Qed.

Print Assumptions C55_sync_partial.
Print Assumptions C55_active_area.
Print Assumptions C55_constant_period.
Print Assumptions C55_documented_line_refuted.
Print Assumptions C55_documented_timing_refuted.
Print Assumptions C56_pixel_changing_ram.
Print Assumptions C56_pixel.
Print Assumptions C56_black_elsewhere.
Print Assumptions C57_ack.
Print Assumptions C57_read.
Print Assumptions C57_contents.
Print Assumptions C57_no_other_address.
