(** C133: an I2C master at the pins reads the EDID. *)
From Coq Require Import ZArith List Bool Lia Arith.
From Verif Require Import Hdl EdidModel EdidSpec EdidPinSpec EdidSettle EdidProofs EdidLink EdidProps EdidPinProofs.
Import ListNotations.
Open Scope nat_scope.

(** SDA as the master sees it in clock [t]. *)
Definition sda_at (mem : Z -> Z) (ab : Z) (i : nat -> ed_in) (t : nat) : bool := ed_line (edid_run mem ab i t) (i t).

(** From clock [T] on the master gives the levels [l]. *)
Definition plays (i : nat -> ed_in) (T : nat) (l : list obs) : Prop :=
  forall q, q < length l -> (edi_scl (i (T + q)), edi_sda (i (T + q))) = nth q l (true, true).

(** The bus is free for 128 clocks before [T], hot-plug is enabled since 192 clocks before [T]. *)
Definition free_before (mem : Z -> Z) (ab : Z) (i : nat -> ed_in) (T : nat) : Prop :=
  128 <= T /\ (forall t, T <= t + 192 -> edi_hpd (i t) = true) /\
  forall t, T <= t + 128 -> t < T -> edi_scl (i t) = true /\ sda_at mem ab i t = true.

(** Whatever happened before, with SCL low for 128 clocks or more, and SDA steady for 64 clocks before SCL rises, SCL high for 64 clocks
    and 64 clocks of start condition, a master that looks at SDA once in each high phase of SCL, in whichever clock of it, reads the
    acknowledges and the bytes of the memory. *)
Theorem C133_pins_partial : forall mem ab i T offset n L l rs,
  (0 <= offset < 256)%Z ->
  128 <= t_low L -> 64 <= t_setup L -> 64 <= t_high L -> 64 <= t_hold L ->
  free_before mem ab i T -> pin_random_read L offset n l rs -> plays i T l ->
  map (fun r => sda_at mem ab i (T + r)) rs = expected_read (fun k => mem ((offset + Z.of_nat k) mod 2 ^ ab)%Z) offset n.
Proof.
  intros mem ab i T offset n L l rs Ho LL LS LH LD (T128 & Hh & FR) HR PL. unfold plays in PL. unfold obs in *.
  assert (J : exists j, 64 * (j + 1) + 62 < T <= 64 * (j + 2) + 62).
  { exists ((T - 63) / 64 - 1). pose proof (Nat.div_mod (T - 63) 64 ltac:(lia)) as D. pose proof (Nat.mod_upper_bound (T - 63) 64 ltac:(lia)) as M.
    set (q := (T - 63) / 64) in *. set (r := (T - 63) mod 64) in *. assert (1 <= q) by lia. lia. }
  destruct J as [j J].
  assert (Hj : forall t, 64 * j + 1 <= t -> edi_hpd (i t) = true) by (intros t Ht; apply Hh; lia).
  assert (IDLE : forall k, j <= k <= j + 1 -> bus mem ab i k = (true, true)).
  { intros k K. unfold bus. destruct (FR (64 * k + 62)) as [F1 F2]; [lia..|]. unfold sda_at in F2. rewrite F1, F2. reflexivity. }
  set (p := 64 * (j + 2) + 62 - T). assert (P : p < 64) by (unfold p; lia).
  destruct HR as [a b w1 w2 w3 r1 r2 r3 Ha Hb S1 S2 S3].
  set (l := repeat (true, false) a ++ w1 ++ repeat (true, false) b ++ w2 ++ w3) in *.
  assert (LEN : length l = a + (length w1 + (b + (length w2 + length w3)))) by (unfold l; rewrite !app_length, !repeat_length; reflexivity).
  unfold obs in *.
  (* samples of the five stretches *)
  destruct (pick_repeat (true, false) a p) as [a' Ea]. pose proof (pick_bounds (repeat (true, false) a) p P) as Ba. unfold obs in *. rewrite Ea, !repeat_length in Ba.
  set (p1 := p + 64 * a' - a) in *. assert (P1 : p1 < 64) by (unfold p1; lia).
  pose proof (pick_bounds w1 p1 P1) as B1. unfold obs in *. set (n1 := @length (bool * bool) (pick p1 w1)) in *.
  set (p2 := p1 + 64 * n1 - length w1) in *. assert (P2 : p2 < 64) by (unfold p2; lia).
  destruct (pick_repeat (true, false) b p2) as [b' Eb]. pose proof (pick_bounds (repeat (true, false) b) p2 P2) as Bb. unfold obs in *. rewrite Eb, !repeat_length in Bb.
  set (p3 := p2 + 64 * b' - b) in *. assert (P3 : p3 < 64) by (unfold p3; lia).
  pose proof (pick_bounds w2 p3 P3) as B2. unfold obs in *. set (n2 := @length (bool * bool) (pick p3 w2)) in *.
  set (p4 := p3 + 64 * n2 - length w2) in *. assert (P4 : p4 < 64) by (unfold p4; lia).
  pose proof (pick_bounds w3 p4 P4) as B3. unfold obs in *. set (n3 := @length (bool * bool) (pick p4 w3)) in *.
  assert (PK : pick p l = repeat (true, false) a' ++ pick p1 w1 ++ repeat (true, false) b' ++ pick p3 w2 ++ pick p4 w3).
  { unfold l. unfold obs in *. rewrite pick_app by exact P. unfold obs in *. rewrite Ea, !repeat_length. fold p1. rewrite pick_app by exact P1. unfold obs in *. fold n1. fold p2.
    rewrite pick_app by exact P2. unfold obs in *. rewrite Eb, !repeat_length. fold p3. rewrite pick_app by exact P3. unfold obs in *. reflexivity. }
  assert (H1 : forall q, q < length w1 -> (edi_scl (i (T + a + q)), edi_sda (i (T + a + q))) = nth q w1 (true, true)).
  { intros q Q. replace (T + a + q) with (T + (a + q)) by lia. rewrite PL by lia. unfold l. rewrite app_nth2 by (rewrite repeat_length; lia).
    rewrite app_nth1 by (rewrite repeat_length; lia). f_equal. rewrite repeat_length. lia. }
  assert (H2 : forall q, q < length w2 -> (edi_scl (i (T + (a + length w1 + b) + q)), edi_sda (i (T + (a + length w1 + b) + q))) = nth q w2 (true, true)).
  { intros q Q. replace (T + (a + length w1 + b) + q) with (T + (a + length w1 + b + q)) by lia. rewrite PL by lia. unfold l.
    rewrite app_nth2 by (rewrite repeat_length; lia). rewrite app_nth2 by (rewrite repeat_length; lia). rewrite app_nth2 by (rewrite !repeat_length; lia).
    rewrite app_nth1 by (rewrite !repeat_length; lia). f_equal. rewrite !repeat_length. lia. }
  assert (H3 : forall q, q < length w3 -> (edi_scl (i (T + (a + length w1 + b + length w2) + q)), edi_sda (i (T + (a + length w1 + b + length w2) + q))) = nth q w3 (true, true)).
  { intros q Q. replace (T + (a + length w1 + b + length w2) + q) with (T + (a + length w1 + b + length w2 + q)) by lia. rewrite PL by lia. unfold l.
    rewrite app_nth2 by (rewrite repeat_length; lia). rewrite app_nth2 by (rewrite repeat_length; lia). rewrite app_nth2 by (rewrite !repeat_length; lia).
    rewrite app_nth2 by (rewrite !repeat_length; lia). f_equal. rewrite !repeat_length. lia. }
  destruct (slots_read mem ab i L _ _ _ _ S1 LL LS LH T (j + 2 + a') p1) as [I1 R1]; [lia|exact P1|unfold p1, p; lia|intros t Ht; apply Hj; lia|exact H1|].
  destruct (slots_read mem ab i L _ _ _ _ S2 LL LS LH T (j + 2 + a' + n1 + b') p3) as [I2 R2]; [lia|exact P3|unfold p3, p2, p1, p; lia|intros t Ht; apply Hj; lia|exact H2|].
  destruct (slots_read mem ab i L _ _ _ _ S3 LL LS LH T (j + 2 + a' + n1 + b' + n2) p4) as [I3 R3]; [lia|exact P4|unfold p4, p3, p2, p1, p; lia|intros t Ht; apply Hj; lia|exact H3|].
  assert (A' : 1 <= a') by lia. assert (B' : 1 <= b') by (unfold p2 in *; lia).
  assert (RR : is_random_read offset n (pick p l)).
  { rewrite PK. replace a' with (S (a' - 1)) by lia. replace b' with (S (b' - 1)) by lia.
    exact (Random_read offset n (a' - 1) (b' - 1) _ _ _ I1 I2 I3). }
  assert (MS : map (master i) (seq (j + 2) (length (pick p l))) = pick p l).
  { apply (samples_pick i l T (j + 2) p P); [unfold p; lia|exact PL]. }
  pose proof (C28_random_read mem ab i j offset n (pick p l) Ho Hj (IDLE j ltac:(lia)) ltac:(replace (S j) with (j + 1) by lia; apply IDLE; lia) RR MS) as C.
  rewrite <- C. clear C.
  assert (SCL : forall k o, In k (seq 0 (length (pick p l))) -> nth k (pick p l) (true, true) = o -> edi_scl (i (smp_clk (j + 2 + k))) = fst o).
  { intros k o Ik E. apply in_seq in Ik. rewrite <- E, <- MS.
    rewrite (nth_indep _ _ (master i 0)) by (rewrite map_length, seq_length; lia). rewrite map_nth, seq_nth by lia. reflexivity. }
  assert (LP : length (pick p l) = a' + (n1 + (b' + (n2 + n3)))) by (rewrite PK, !app_length, !repeat_length; reflexivity).
  rewrite LP. rewrite !seq_app, !map_app.
  change (map (bus mem ab i)) with (map (smp mem ab i)).
  rewrite bits_highs.
  - rewrite R1. cbn [app byte_bits map seq]. rewrite bits_highs.
    + rewrite R2. rewrite <- (app_nil_r (map (smp mem ab i) (seq (j + 2 + a' + n1 + b' + n2) n3))).
      rewrite R3. cbn [bits_seen]. rewrite app_nil_r. unfold sda_at. rewrite ?app_assoc. reflexivity.
    + apply Forall_bus. intros k K. replace k with (j + 2 + (k - (j + 2))) by lia. apply (SCL _ (true, false)); [apply in_seq; unfold obs in *; lia|].
      rewrite PK. unfold obs in *. rewrite app_nth2 by (rewrite repeat_length; lia). rewrite app_nth2 by (rewrite repeat_length; fold n1; lia).
      rewrite app_nth1 by (rewrite !repeat_length; fold n1; lia). apply nth_rep. rewrite repeat_length. fold n1. lia.
  - apply Forall_bus. intros k K. replace k with (j + 2 + (k - (j + 2))) by lia. apply (SCL _ (true, false)); [apply in_seq; unfold obs in *; lia|].
    rewrite PK. unfold obs in *. rewrite app_nth1 by (rewrite repeat_length; lia). apply nth_rep. lia.
Qed.
Print Assumptions C133_pins_partial.

(** Standard-mode timing with a system clock of 100 MHz: SCL low 4.7 us, SDA steady 250 ns before SCL rises, SCL high 4 us, start
    condition 4 us. *)
Definition standard_100 : limits := {| t_low := 470; t_setup := 25; t_high := 400; t_hold := 400 |}.

(** A read of byte [offset] with [e] clocks of setup and 470 clocks of SCL low; SDA is released at the beginning of each bit. *)
Definition ex_slots (e : nat) (ms : list bool) : list obs := concat (map (fun m => pin_slot m (repeat true (470 - e)) e 400) ms).
Definition ex_reads (p n : nat) : list nat := map (fun k => p + (870 * k + 670)) (seq 0 n).
Definition ex_w1 (e : nat) (offset : Z) := ex_slots e (byte_bits 160 ++ [true] ++ byte_bits offset ++ [true] ++ [true]).
Definition ex_w2 (e : nat) := ex_slots e (byte_bits 161 ++ [true]).
Definition ex_w3 (e : nat) := ex_slots e (read_slots 1).
Definition ex_levels (e : nat) (offset : Z) : list obs :=
  repeat (true, false) 400 ++ ex_w1 e offset ++ repeat (true, false) 400 ++ ex_w2 e ++ ex_w3 e.
Definition ex_looks : list nat := ex_reads 400 19 ++ ex_reads (400 + 870 * 19 + 400) 9 ++ ex_reads (400 + 870 * 19 + 400 + 870 * 9) 9.
Definition ex_master (l : list obs) (t : nat) : ed_in :=
  let o := if t <? 128 then (true, true) else nth (t - 128) l (true, true) in {| edi_scl := fst o; edi_sda := snd o; edi_hpd := true |}.

Lemma ex_slots_ok : forall L e ms p, t_low L <= 470 -> t_setup L <= e <= 470 -> t_high L <= 400 ->
  pin_slots L p ms (ex_slots e ms) (ex_reads p (length ms)).
Proof.
  intros L e ms p A B C. revert p. induction ms as [|m ms IH]; intros p; [constructor|].
  unfold ex_slots. cbn [map concat]. fold (ex_slots e ms).
  assert (E : ex_reads p (length (m :: ms)) = (p + (length (repeat true (470 - e)) + e + 200)) :: ex_reads (p + (length (repeat true (470 - e)) + e + 400)) (length ms)).
  { unfold ex_reads. cbn [length seq map]. rewrite repeat_length. f_equal; [lia|]. rewrite <- seq_shift, map_map. apply map_ext. intros k. lia. }
  rewrite E. constructor; [rewrite repeat_length; lia|lia|lia|lia|apply IH].
Qed.
Lemma ex_slots_len : forall e ms, e <= 470 -> length (ex_slots e ms) = 870 * length ms.
Proof.
  intros e ms E. induction ms as [|m ms IH]; [reflexivity|]. unfold ex_slots. cbn [map concat]. fold (ex_slots e ms).
  rewrite app_length, IH. unfold pin_slot. rewrite !app_length, map_length, !repeat_length. cbn [length]. lia.
Qed.
Lemma ex_read_ok : forall L e offset, t_low L <= 470 -> t_setup L <= e <= 470 -> t_high L <= 400 -> t_hold L <= 400 ->
  pin_random_read L offset 1 (ex_levels e offset) ex_looks.
Proof.
  intros L e offset A B C D. apply Pin_random_read; try exact D; unfold ex_w1, ex_w2, ex_w3; rewrite ?ex_slots_len by lia.
  - exact (ex_slots_ok L e (byte_bits 160 ++ [true] ++ byte_bits offset ++ [true] ++ [true]) 400 A B C).
  - exact (ex_slots_ok L e (byte_bits 161 ++ [true]) (400 + 870 * 19 + 400) A B C).
  - exact (ex_slots_ok L e (read_slots 1) (400 + 870 * 19 + 400 + 870 * 9) A B C).
Qed.
Lemma ex_plays : forall l, plays (ex_master l) 128 l.
Proof.
  intros l q Q. unfold ex_master. replace (128 + q <? 128) with false by (symmetry; apply Nat.ltb_ge; lia).
  replace (128 + q - 128) with q by lia. destruct (nth q l (true, true)). reflexivity.
Qed.
Lemma ex_free : forall l, free_before default_mem 8 (ex_master l) 128.
Proof.
  intros l. split; [lia|]. split; [reflexivity|]. intros t _ T.
  assert (E : forall k, k <= 128 -> edid_run default_mem 8 (ex_master l) k = edid_run default_mem 8 (fun _ => {| edi_scl := true; edi_sda := true; edi_hpd := true |}) k).
  { induction k as [|k IH]; intros K; [reflexivity|]. rewrite !run_S, IH by lia. f_equal. unfold ex_master.
    replace (k <? 128) with true by (symmetry; apply Nat.ltb_lt; lia). reflexivity. }
  unfold sda_at. rewrite E by lia. unfold ex_master. replace (t <? 128) with true by (symmetry; apply Nat.ltb_lt; lia).
  cbn [edi_scl edi_sda fst snd ed_line]. split; [reflexivity|].
  assert (K : forallb (fun t => ed_line (edid_run default_mem 8 (fun _ => {| edi_scl := true; edi_sda := true; edi_hpd := true |}) t) {| edi_scl := true; edi_sda := true; edi_hpd := true |}) (seq 0 128) = true) by (vm_compute; reflexivity).
  rewrite forallb_forall in K. apply (K t). apply in_seq. lia.
Qed.

(** False with the setup time of the standard: SDA may fall and SCL rise between two samples, and the slave takes that for a start
    condition.  Here it happens during the offset, which is then not acknowledged. *)
Theorem C133_short_setup_refuted : exists i T l rs,
  free_before default_mem 8 i T /\ pin_random_read standard_100 8 1 l rs /\ plays i T l /\
  map (fun r => sda_at default_mem 8 i (T + r)) rs <> expected_read (fun k => default_mem ((8 + Z.of_nat k) mod 2 ^ 8)%Z) 8 1.
Proof.
  exists (ex_master (ex_levels 25 8)), 128, (ex_levels 25 8), ex_looks.
  split; [apply ex_free|]. split; [apply ex_read_ok; vm_compute; lia|]. split; [apply ex_plays|].
  intros H. apply (f_equal (fun l => nth 17 l (sda_at default_mem 8 (ex_master (ex_levels 25 8)) (128 + 0)))) in H.
  rewrite (map_nth (fun r => sda_at default_mem 8 (ex_master (ex_levels 25 8)) (128 + r)) ex_looks 0 17) in H.
  replace (nth 17 ex_looks 0) with (400 + (870 * 17 + 670)) in H by reflexivity.
  assert (X : sda_at default_mem 8 (ex_master (ex_levels 25 8)) (128 + (400 + (870 * 17 + 670))) = true) by (vm_compute; reflexivity).
  rewrite X in H. clear X. discriminate H.
Qed.
Print Assumptions C133_short_setup_refuted.

(** With 64 clocks of setup the same master reads 5, the byte at offset 8. *)
Definition standard_64 : limits := {| t_low := 470; t_setup := 64; t_high := 400; t_hold := 400 |}.
Example C133_example : map (fun r => sda_at default_mem 8 (ex_master (ex_levels 64 8)) (128 + r)) ex_looks =
  byte_bits 160 ++ [false] ++ byte_bits 8 ++ [false] ++ [true] ++ byte_bits 161 ++ [false] ++ byte_bits 5 ++ [true].
Proof.
  assert (L : 128 <= t_low standard_64 /\ 64 <= t_setup standard_64 /\ 64 <= t_high standard_64 /\ 64 <= t_hold standard_64) by (cbn; lia).
  destruct L as (L1 & L2 & L3 & L4).
  assert (R : pin_random_read standard_64 8 1 (ex_levels 64 8) ex_looks) by (apply ex_read_ok; cbn; lia).
  rewrite (C133_pins_partial default_mem 8 (ex_master (ex_levels 64 8)) 128 8 1 standard_64 (ex_levels 64 8) ex_looks ltac:(lia) L1 L2 L3 L4 (ex_free _) R (ex_plays _)).
  reflexivity.
Qed.

(** * C30 at the pins *)
(** Hot-plug enabled, and SCL never low for less than 128 clocks.  After any such history, a master that releases SDA and clocks SCL ten
    times reads a 1 whenever it looks in each high phase, so it gets the bus back. *)
Theorem C30_recovers_at_pins_partial : forall mem ab i T L w rs,
  (forall t, edi_hpd (i t) = true) ->
  (forall t d, edi_scl (i t) = true -> edi_scl (i (S t)) = false -> 1 <= d <= 128 -> edi_scl (i (t + d)) = false) ->
  63 <= T -> 128 <= t_low L -> 64 <= t_setup L -> 64 <= t_high L ->
  pin_slots L 0 (repeat true 10) w rs -> plays i T w ->
  In true (map (fun r => sda_at mem ab i (T + r)) rs).
Proof.
  intros mem ab i T L w rs Hh HL HT LL LS LH HS PL.
  assert (J : exists j, 64 * j + 62 < T <= 64 * (j + 1) + 62).
  { exists ((T - 63) / 64). pose proof (Nat.div_mod (T - 63) 64 ltac:(lia)). pose proof (Nat.mod_upper_bound (T - 63) 64 ltac:(lia)). lia. }
  destruct J as [j J]. set (p := 64 * (j + 1) + 62 - T). assert (P : p < 64) by (unfold p; lia).
  assert (FALL : forall n t, edi_scl (i t) = true -> edi_scl (i (t + n)) = false -> exists u, t <= u < t + n /\ edi_scl (i u) = true /\ edi_scl (i (S u)) = false).
  { induction n as [|n IH]; intros t A B; [rewrite Nat.add_0_r in B; congruence|]. destruct (edi_scl (i (S t))) eqn:E.
    - destruct (IH (S t) E) as (u & U & U1 & U2); [rewrite Nat.add_succ_r in B; exact B|]. exists u. split; [lia|]. auto.
    - exists t. split; [lia|]. auto. }
  assert (LOW : forall k, fst (master i k) = true -> fst (master i (S k)) = false -> fst (master i (S (S k))) = false).
  { intros k A B. unfold master in *. cbn [fst] in *.
    destruct (FALL 64 (64 * k + 62) A) as (u & U & U1 & U2); [replace (64 * k + 62 + 64) with (64 * S k + 62) by lia; exact B|].
    replace (64 * S (S k) + 62) with (u + (64 * k + 190 - u)) by lia. apply HL; [exact U1|exact U2|lia]. }
  destruct (slots_read mem ab i L _ _ _ _ HS LL LS LH T (S j) p) as [I1 R1]; [lia|exact P|unfold p; lia|intros t _; apply Hh|intros q Q; rewrite Nat.add_0_r; apply PL, Q|].
  assert (MS : map (master i) (seq (S j) (length (pick p w))) = pick p w).
  { apply (samples_pick i w T (S j) p P); [unfold p; lia|exact PL]. }
  pose proof (C30_bus_recovers_partial mem ab i j (pick p w) Hh LOW I1 MS) as C.
  specialize (R1 (fst (master i j)) []). rewrite app_nil_r in R1. cbn [bits_seen] in R1. rewrite app_nil_r in R1.
  change (map (smp mem ab i)) with (map (bus mem ab i)) in R1. rewrite R1 in C. exact C.
Qed.
Print Assumptions C30_recovers_at_pins_partial.

(** Ten clocks as fast as the limits allow, with the bus left high before. *)
Definition fastest : limits := {| t_low := 128; t_setup := 64; t_high := 64; t_hold := 64 |}.
Definition ten_clocks : list obs := concat (repeat (pin_slot true [] 128 64) 10).
Example C30_pins_example : exists rs, pin_slots fastest 0 (repeat true 10) ten_clocks rs /\ plays (ex_master ten_clocks) 128 ten_clocks /\
  (forall t, edi_hpd (ex_master ten_clocks t) = true) /\
  forall t d, edi_scl (ex_master ten_clocks t) = true -> edi_scl (ex_master ten_clocks (S t)) = false -> 1 <= d <= 128 -> edi_scl (ex_master ten_clocks (t + d)) = false.
Proof.
  eexists. split.
  { unfold ten_clocks. cbn [repeat concat]. do 10 (eapply (More_pin_slots fastest _ true _ [] 128 64 0); [cbn; lia|cbn; lia|cbn; lia|lia|]). constructor. }
  split; [apply ex_plays|]. split; [reflexivity|].
  assert (LL : length ten_clocks = 192 * 10) by (vm_compute; reflexivity).
  assert (OUT : forall t, 128 + 192 * 10 <= t -> edi_scl (ex_master ten_clocks t) = true).
  { intros t H. unfold ex_master. replace (t <? 128) with false by (symmetry; apply Nat.ltb_ge; lia). rewrite nth_overflow by (rewrite LL; lia). reflexivity. }
  intros t d A B D. destruct (Nat.le_gt_cases (128 + 192 * 10) (S t)) as [Q|Q]; [rewrite OUT in B by exact Q; discriminate B|].
  assert (K : forallb (fun t => if edi_scl (ex_master ten_clocks t) && negb (edi_scl (ex_master ten_clocks (S t))) then forallb (fun d => negb (edi_scl (ex_master ten_clocks (t + d)))) (seq 1 128) else true)
    (seq 0 (128 + 192 * 10)) = true) by (vm_compute; reflexivity).
  rewrite forallb_forall in K. specialize (K t ltac:(apply in_seq; lia)). cbv beta in K. rewrite A, B in K. cbn [andb negb] in K.
  rewrite forallb_forall in K. specialize (K d ltac:(apply in_seq; lia)). apply negb_true_iff, K.
Qed.
