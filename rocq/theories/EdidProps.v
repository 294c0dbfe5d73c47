(** Final theorems about the EDID slave. *)
From Coq Require Import ZArith List Bool Lia Arith.
From Verif Require Import Hdl EdidModel EdidSpec EdidSettle EdidProofs EdidLink EdidInv EdidRecover.
Import ListNotations.
Open Scope nat_scope.

(** Bus levels (SCL, SDA) and levels given by the master (SCL, SDA released?)
    in clock 64k+62, which is when the slave looks at the bus. *)
Definition bus (mem : Z -> Z) (ab : Z) (i : nat -> ed_in) (k : nat) : obs :=
  (edi_scl (i (64 * k + 62)), ed_line (edid_run mem ab i (64 * k + 62)) (i (64 * k + 62))).
Definition master (i : nat -> ed_in) (k : nat) : obs :=
  (edi_scl (i (64 * k + 62)), edi_sda (i (64 * k + 62))).

(** The slave pulls SDA low. *)
Definition pulls (s : ed_st) : bool := ec_drv (es_core s).

(** C28: whatever happened before, once the bus has been idle for two samples
    a random read of [n] bytes reads acknowledges and the memory contents. *)
Theorem C28_random_read : forall mem ab i j offset n ws,
  (0 <= offset < 256)%Z ->
  (forall t, 64 * j + 1 <= t -> edi_hpd (i t) = true) ->
  bus mem ab i j = (true, true) -> bus mem ab i (S j) = (true, true) ->
  is_random_read offset n ws ->
  map (master i) (seq (j + 2) (length ws)) = ws ->
  bits_seen true (map (bus mem ab i) (seq (j + 2) (length ws))) =
  expected_read (fun k => mem ((offset + Z.of_nat k) mod 2 ^ ab)%Z) offset n.
Proof.
  intros mem ab i j offset n ws Ho Hh B0 B1 HW HM.
  destruct (idle mem ab i j Hh B0 B1) as (S & A & B & D).
  destruct (trace_link mem ab i (length ws) (j + 2)) as [T _]; [intros t Ht; apply Hh; lia | lia |].
  change (map (smp mem ab i)) with (map (bus mem ab i)) in T. rewrite T.
  change (map (msmp i)) with (map (master i)). rewrite HM.
  replace (j + 2) with (Datatypes.S (Datatypes.S j)) by lia.
  change (fun k => mem ((offset + Z.of_nat k) mod 2 ^ ab)%Z) with (fun k => mem (trunc ab (offset + Z.of_nat k))).
  rewrite <- (random_read_run mem ab _ offset n ws Ho S A B D HW). unfold seen. rewrite A. reflexivity.
Qed.

Print Assumptions C28_random_read.

(** C29: after a start and an address byte [x] whose seven address bits are not
    0x50, the slave does not pull SDA in any clock until a start condition. *)
Theorem C29_other_address : forall mem ab i j x a w K t,
  (0 <= x < 256)%Z -> (x / 2 <> 80)%Z ->
  (forall t, 64 * j + 1 <= t -> edi_hpd (i t) = true) ->
  bus mem ab i j = (true, true) -> bus mem ab i (S j) = (true, true) ->
  is_slots (byte_bits x) w ->
  let ws := start_cond a ++ w in
  let e := j + 2 + length ws in
  map (master i) (seq (j + 2) (length ws)) = ws ->
  (forall k, e <= k < K ->
     ~ (fst (bus mem ab i k) = true /\ snd (bus mem ab i k) = false /\ snd (bus mem ab i (k - 1)) = true)) ->
  64 * e + 65 <= t <= 64 * K + 65 ->
  pulls (edid_run mem ab i t) = false.
Proof.
  intros mem ab i j x a w K t Hx Hne Hh B0 B1 HW ws e HM HN Ht.
  destruct (idle mem ab i j Hh B0 B1) as (S & A & B & D).
  destruct (trace_link mem ab i (length ws) (j + 2)) as [_ TE]; [intros t' Ht'; apply Hh; lia | lia |].
  change (map (msmp i)) with (map (master i)) in TE. rewrite HM in TE. fold e in TE.
  replace (j + 2) with (Datatypes.S (Datatypes.S j)) in TE by lia.
  set (c := Cj mem ab i (Datatypes.S (Datatypes.S j))) in *.
  destruct (start_run mem ab c a S A B D) as (E0 & _ & R).
  unfold ws in TE. rewrite bend_app, E0 in TE.
  assert (T1 : Tr mem ab (mk mem RCV_ADDRESS 0 (ec_din c) (ec_isr c) (ec_off c) (ec_ddrv c) (ec_dbit c) true false)
     (byte_bits x) (byte_bits x)
     (mk mem WAIT_START 8 x (ec_isr c) (ec_off c) (ec_ddrv c) (ec_dbit c) true (Z.testbit x 0))).
  { apply rx_byte with (f := RCV_ADDRESS) (din := ec_din c) (isr := ec_isr c) (off := ec_off c) (dd := ec_ddrv c) (db := ec_dbit c);
      [tauto | exact R | exact Hx | reflexivity | |].
    - intros y. apply low_rx; [tauto | reflexivity].
    - intros d Ed. rewrite rise_other; [rewrite Ed; reflexivity|]. rewrite Ed. unfold slice.
      change (2 ^ 1)%Z with 2%Z. change (2 ^ 7)%Z with 128%Z. rewrite Z.mod_small; [exact Hne|].
      split; [apply Z.div_pos; lia | apply Z.div_lt_upper_bound; lia]. }
  destruct (T1 w HW) as [E1 _]. rewrite E1 in TE.
  (* stays there *)
  assert (I : forall n, 64 * e + 65 + n <= 64 * K + 65 ->
     ec_fsm (es_core (edid_run mem ab i (64 * e + 65 + n))) = WAIT_START /\
     ec_ddrv (es_core (edid_run mem ab i (64 * e + 65 + n))) && negb (ec_dbit (es_core (edid_run mem ab i (64 * e + 65 + n)))) = false /\
     ec_drv (es_core (edid_run mem ab i (64 * e + 65 + n))) = false /\
     (ec_sda_r (es_core (edid_run mem ab i (64 * e + 65 + n))) =
        if Nat.eqb (n mod 64) 0 then snd (bus mem ab i (e + n / 64 - 1)) else snd (bus mem ab i (e + n / 64)))).
  { induction n as [|n IH]; intros Hn.
    - rewrite Nat.add_0_r. unfold Cj in TE. rewrite TE. unfold mk. cbn [ec_fsm ec_ddrv ec_dbit ec_drv ec_sda_r zero_drv orb].
      split; [reflexivity|]. split; [exact R|]. split; [exact R|].
      change (Nat.eqb (0 mod 64) 0) with true. cbv iota. change (0 / 64) with 0. rewrite Nat.add_0_r.
      (* last sample of the address byte *)
      pose proof (f_equal ec_sda_r TE) as F. unfold mk in F. cbn [ec_sda_r] in F. rewrite <- F.
      replace e with (Datatypes.S (e - 1)) at 1 by (unfold e; lia).
      destruct (Cj_S mem ab i (e - 1)) as [EE _]; [intros t' Ht'; apply Hh; unfold e in Ht'; lia|].
      unfold Cj in EE at 1. rewrite EE. rewrite bstep_sda. reflexivity.
    - destruct (IH ltac:(lia)) as (F1 & F2 & F3 & F4). clear IH.
      replace (64 * e + 65 + Datatypes.S n) with (Datatypes.S (64 * e + 65 + n)) by lia.
      rewrite run_S. cbn [edid_step es_core].
      set (q := n / 64). set (r := n mod 64).
      assert (Dn : n = 64 * q + r) by (apply Nat.div_mod; lia).
      assert (Hr : r < 64) by (apply Nat.mod_upper_bound; lia).
      assert (En : 64 * e + 65 + n = 64 * (e + q) + 65 + r) by lia.
      destruct (sampled mem ab i (e + q) r Hr) as [Ss Sd].
      rewrite <- En in Ss, Sd. rewrite Ss, Sd.
      change (smp mem ab i (e + q)) with (bus mem ab i (e + q)).
      fold q r in F4.
      set (co := es_core (edid_run mem ab i (64 * e + 65 + n))) in *.
      assert (Hst : fst (bus mem ab i (e + q)) && (negb (snd (bus mem ab i (e + q))) && ec_sda_r co) = false).
      { destruct (fst (bus mem ab i (e + q))) eqn:X1; [|reflexivity].
        destruct (snd (bus mem ab i (e + q))) eqn:X2; [reflexivity|]. cbn [negb andb]. rewrite F4.
        destruct (Nat.eqb r 0) eqn:X3; [|reflexivity].
        destruct (snd (bus mem ab i (e + q - 1))) eqn:X4; [|reflexivity]. exfalso.
        apply (HN (e + q)); [lia | auto]. }
      unfold ed_step. cbn [ec_fsm ec_ddrv ec_dbit ec_drv ec_sda_r].
      rewrite F1, Hst, Hh by lia. cbn [negb andb]. unfold sda_drv. rewrite F1, F2. cbn [zero_drv orb].
      repeat split.
      destruct (Nat.eq_dec r 63) as [R63 | R63].
      + assert (Datatypes.S n / 64 = Datatypes.S q) as ->.
        { symmetry. apply (Nat.div_unique _ 64 _ 0); lia. }
        assert (Datatypes.S n mod 64 = 0) as ->.
        { symmetry. apply (Nat.mod_unique _ 64 (Datatypes.S q) 0); lia. }
        cbn [Nat.eqb]. replace (e + Datatypes.S q - 1) with (e + q) by lia. reflexivity.
      + assert (Datatypes.S n / 64 = q) as ->.
        { symmetry. apply (Nat.div_unique _ 64 _ (Datatypes.S r)); lia. }
        assert (Datatypes.S n mod 64 = Datatypes.S r) as ->.
        { symmetry. apply (Nat.mod_unique _ 64 q (Datatypes.S r)); lia. }
        reflexivity. }
  unfold pulls. replace t with (64 * e + 65 + (t - (64 * e + 65))) by lia. apply I. lia.
Qed.

Print Assumptions C29_other_address.

(** C30, part that holds: hot-plug enabled, and SCL low for at least two
    samples each time.  After any such history, a master that releases SDA and
    gives ten clocks on SCL reads a 1, so it gets the bus back. *)
Theorem C30_bus_recovers_partial : forall mem ab i j ws,
  (forall t, edi_hpd (i t) = true) ->
  (forall k, fst (master i k) = true -> fst (master i (S k)) = false -> fst (master i (S (S k))) = false) ->
  is_slots (repeat true 10) ws ->
  map (master i) (seq (S j) (length ws)) = ws ->
  In true (bits_seen (fst (master i j)) (map (bus mem ab i) (seq (S j) (length ws)))).
Proof.
  intros mem ab i j ws Hh Hl HW HM.
  destruct (Cj_inv mem ab i Hh Hl j) as [S I].
  destruct (trace_link mem ab i (length ws) (Datatypes.S j)) as [T _]; [intros; apply Hh | lia |].
  change (map (smp mem ab i)) with (map (bus mem ab i)) in T. rewrite T.
  change (map (msmp i)) with (map (master i)). rewrite HM.
  pose proof (frees_seen mem ab _ ws (inv_frees mem ab _ _ S I) HW) as K. unfold seen in K.
  destruct (Cj_S mem ab i j) as [E _]; [intros; apply Hh|].
  rewrite E in K at 1. rewrite bstep_scl in K. exact K.
Qed.

Print Assumptions C30_bus_recovers_partial.

(** And the slave releases SDA whenever it waits for a start condition or
    listens to an address. *)
Theorem C30_released_partial : forall mem ab i k,
  (forall t, edi_hpd (i t) = true) ->
  (forall k, fst (master i k) = true -> fst (master i (S k)) = false -> fst (master i (S (S k))) = false) ->
  let s := edid_run mem ab i (64 * S k + 65) in
  ec_fsm (es_core s) = WAIT_START \/ ec_fsm (es_core s) = RCV_ADDRESS -> pulls s = false.
Proof.
  intros mem ab i k Hh Hl s Hf. destruct (Cj_inv mem ab i Hh Hl k) as [S I].
  unfold s, pulls in *. fold (Cj mem ab i (Datatypes.S k)) in *. rename Hf into F.
  pose proof (settled_fields mem ab _ S) as (_ & D & _). rewrite D. unfold sda_drv.
  unfold inv_b in I. destruct F as [F | F]; rewrite F in *; cbn [zero_drv orb is_read_st andb] in *;
    destruct (ec_ddrv _ && negb (ec_dbit _)); try reflexivity; rewrite ?andb_false_r in I; discriminate I.
Qed.

Print Assumptions C30_released_partial.

(** The slave hangs the bus for ever from here on: the next states keep SDA low
    whatever the master and the software do. *)
Definition hung (s : ed_st) : bool :=
  match ec_fsm (es_core s) with WAIT_START => true | _ => false end &&
  ec_ddrv (es_core s) && negb (ec_dbit (es_core s)) && ec_drv (es_core s) &&
  negb (es_sda0 s) && negb (es_sda1 s) && negb (es_sda_i s) && negb (ec_sda_r (es_core s)).

Lemma hung_step : forall mem ab s x, hung s = true -> hung (edid_step mem ab s x) = true.
Proof.
  intros mem ab s x H. destruct s as [s0 s1 d0 d1 cn ca si di [sr dr cnt din isr off dat dbit ddrv drv fsm]].
  unfold hung in H. cbn [es_core es_sda0 es_sda1 es_sda_i ec_fsm ec_ddrv ec_dbit ec_drv ec_sda_r] in H.
  destruct fsm; try discriminate H. destruct ddrv, dbit, drv, d0, d1, di, dr; try discriminate H.
  destruct x as [xs xd xh]. unfold hung, edid_step, ed_line, ed_step, sda_drv.
  cbn [es_core es_scl0 es_scl1 es_sda0 es_sda1 es_sda_i es_scl_i es_carry es_count ec_scl_r ec_sda_r ec_cnt ec_din ec_isr ec_off ec_dat ec_dbit ec_ddrv ec_drv ec_fsm
       edi_scl edi_sda edi_hpd negb andb orb zero_drv].
  rewrite !andb_false_r. destruct xh, ca; reflexivity.
Qed.

Lemma hung_forever : forall mem ab i i' T, hung (edid_run mem ab i T) = true ->
  (forall t, t < T -> i' t = i t) -> forall t, T <= t -> ed_line (edid_run mem ab i' t) (i' t) = false.
Proof.
  intros mem ab i i' T H E.
  assert (E' : forall t, t <= T -> edid_run mem ab i' t = edid_run mem ab i t).
  { induction t as [|t IH]; intros Ht; [reflexivity|]. rewrite !run_S, IH, E by lia. reflexivity. }
  assert (K : forall n, hung (edid_run mem ab i' (T + n)) = true).
  { induction n as [|n IH]; [rewrite Nat.add_0_r, E' by lia; exact H|].
    rewrite Nat.add_succ_r, run_S. apply hung_step, IH. }
  intros t Ht. specialize (K (t - T)). replace (T + (t - T)) with t in K by lia.
  unfold hung in K. unfold ed_line. destruct (ec_drv (es_core (edid_run mem ab i' t))); [apply andb_false_r|].
  rewrite ?andb_false_r in K. cbn in K. discriminate K.
Qed.

(** A master addressing the slave for reading: levels per sample. *)
Definition addr_read : list obs :=
  [(true, true); (true, true); (true, false)] ++
  concat (map (fun m => slot m m [] 0) (byte_bits 161 ++ [true])).

(** Inputs that follow a list of (SCL, SDA, hpd_en), one entry per sample. *)
Definition follow (l : list (bool * bool * bool)) (t : nat) : ed_in :=
  let '(c, d, h) := nth (t / 64) l (true, true, true) in {| edi_scl := c; edi_sda := d; edi_hpd := h |}.

Definition hpd_drop : list (bool * bool * bool) :=
  map (fun o => (o, true)) addr_read ++ repeat (false, true, true) 3 ++ repeat (false, true, false) 2.

(** C30 is false when hot-plug is disabled in the middle of a read: there is
    a history after which, whatever the master does and even if hot-plug is
    enabled again, SDA stays low for ever.  The contents are the default EDID. *)
Theorem C30_hpd_drop_hangs_refuted :
  exists i T, forall i', (forall t, t < T -> i' t = i t) ->
    forall t, T <= t -> ed_line (edid_run default_mem 8 i' t) (i' t) = false.
Proof.
  exists (follow hpd_drop), (64 * 44). intros i' E.
  apply hung_forever with (i := follow hpd_drop); [vm_compute; reflexivity | exact E].
Qed.

Print Assumptions C30_hpd_drop_hangs_refuted.

(** C30 is also false, with hot-plug enabled all the time, when the low phase
    of SCL contains only one sample: the slave takes its own falling edge on
    SDA for a start condition and SDA stays low for ever.  The master
    reads offset 9 of the default EDID (0xb8 = 10111000). *)
Definition short_low : list (bool * bool * bool) :=
  map (fun o => (o, true))
    ([(true, true); (true, true); (true, false)] ++
     concat (map (fun m => slot m m [] 0) (byte_bits 160 ++ [true] ++ byte_bits 9 ++ [true] ++ [true])) ++
     [(true, false)] ++
     concat (map (fun m => slot m m [] 0) (byte_bits 161 ++ [true; true])) ++
     [(false, true)] ++ repeat (true, true) 2 ++ concat (map (fun m => slot m m [] 0) (repeat true 12))).

Theorem C30_short_low_hangs_refuted :
  exists i T, (forall t, edi_hpd (i t) = true) /\ forall i', (forall t, t < T -> i' t = i t) ->
    forall t, T <= t -> ed_line (edid_run default_mem 8 i' t) (i' t) = false.
Proof.
  exists (follow short_low), (64 * 150). split.
  - intros t. unfold follow. destruct (nth (t / 64) short_low (true, true, true)) as [[c d] h] eqn:E.
    cbn [edi_hpd]. assert (K : forallb (fun o => snd o) short_low = true) by (vm_compute; reflexivity).
    rewrite forallb_forall in K.
    destruct (nth_in_or_default (t / 64) short_low (true, true, true)) as [A | A]; rewrite E in A.
    + apply (K _ A).
    + injection A as _ _ ->. reflexivity.
  - intros i' E. apply hung_forever with (i := follow short_low); [vm_compute; reflexivity | exact E].
Qed.

Print Assumptions C30_short_low_hangs_refuted.

(** Hypotheses of C28 met: two bytes of the default EDID from offset 8, the
    listener reads 0x05 0xb8. *)
Definition ex_ws : list obs :=
  start_cond 0 ++
  concat (map (fun m => slot m m [] 0) (byte_bits 160 ++ [true] ++ byte_bits 8 ++ [true] ++ [true])) ++
  start_cond 1 ++ concat (map (fun m => slot m true [m] 1) (byte_bits 161 ++ [true])) ++
  concat (map (fun m => slot m m [] 2) (read_slots 2)).

Lemma slots_intro : forall x xs h ms, is_slots ms (concat (map (fun m => slot m (x m) (xs m) h) ms)).
Proof. induction ms as [|m ms IH]; [constructor|]. cbn [map concat]. constructor; [constructor | exact IH]. Qed.

Definition ex_in : nat -> ed_in := follow (map (fun o => (o, true)) ([(true, true); (true, true)] ++ ex_ws)).

Lemma follow_hpd : forall l t, forallb (fun o => snd o) l = true -> edi_hpd (follow l t) = true.
Proof.
  intros l t K. unfold follow. destruct (nth (t / 64) l (true, true, true)) as [[c d] h] eqn:E.
  cbn [edi_hpd]. rewrite forallb_forall in K.
  destruct (nth_in_or_default (t / 64) l (true, true, true)) as [A | A]; rewrite E in A.
  - apply (K _ A).
  - injection A as _ _ ->. reflexivity.
Qed.

Example C28_example :
  bits_seen true (map (bus default_mem 8 ex_in) (seq 2 (length ex_ws))) =
  byte_bits 160 ++ [false] ++ byte_bits 8 ++ [false] ++ [true] ++ byte_bits 161 ++ [false] ++
  byte_bits 5 ++ [false] ++ byte_bits 184 ++ [true].
Proof.
  refine (eq_trans (C28_random_read default_mem 8 ex_in 0 8 2 ex_ws _ _ _ _ _ _) _).
  - lia.
  - intros t _. apply follow_hpd. vm_compute. reflexivity.
  - vm_compute. reflexivity.
  - vm_compute. reflexivity.
  - unfold ex_ws. apply Random_read; apply slots_intro.
  - vm_compute. reflexivity.
  - vm_compute. reflexivity.
Qed.

(** Hypotheses of C29 met: address 0x51, then traffic to that other device. *)
Definition ex29_ws : list obs := start_cond 0 ++ concat (map (fun m => slot m m [] 0) (byte_bits 162)).
Definition ex29_in : nat -> ed_in :=
  follow (map (fun o => (o, true)) ([(true, true); (true, true)] ++ ex29_ws ++
     concat (map (fun m => slot m m [] 0) ([false] ++ byte_bits 160 ++ [false])))).

Example C29_example : forall t, 64 * (2 + length ex29_ws) + 65 <= t <= 64 * 57 + 65 ->
  pulls (edid_run default_mem 8 ex29_in t) = false.
Proof.
  intros t Ht.
  refine (C29_other_address default_mem 8 ex29_in 0 162 0 (concat (map (fun m => slot m m [] 0) (byte_bits 162))) 57 t _ _ _ _ _ _ _ _ _).
  - lia.
  - discriminate.
  - intros t' _. apply follow_hpd. vm_compute. reflexivity.
  - vm_compute. reflexivity.
  - vm_compute. reflexivity.
  - apply slots_intro.
  - vm_compute. reflexivity.
  - intros k Hk (A & B & C).
    assert (K : forallb (fun k => negb (fst (bus default_mem 8 ex29_in k) && negb (snd (bus default_mem 8 ex29_in k)) &&
        snd (bus default_mem 8 ex29_in (k - 1)))) (seq 27 30) = true) by (vm_compute; reflexivity).
    rewrite forallb_forall in K. specialize (K k). rewrite A, B, C in K. cbn [negb andb] in K.
    assert (In k (seq 27 30)) by (apply in_seq; cbn in Hk; lia). specialize (K H). discriminate K.
  - exact Ht.
Qed.

(** Hypotheses of C30 met: ten clocks after the slave started to send a 0. *)
Definition ex30_in : nat -> ed_in :=
  follow (map (fun o => (o, true)) (addr_read ++ concat (map (fun m => slot m m [] 0) (repeat true 10)))).

Example C30_example :
  In true (bits_seen true (map (bus default_mem 8 ex30_in) (seq 30 30))) /\
  nth 1 (map (bus default_mem 8 ex30_in) (seq 30 30)) (true, true) = (false, false).
Proof.
  split.
  - apply (C30_bus_recovers_partial default_mem 8 ex30_in 29 (concat (map (fun m => slot m m [] 0) (repeat true 10)))).
    + intros t. apply follow_hpd. vm_compute. reflexivity.
    + intros k. destruct (le_lt_dec 60 k) as [Hk | Hk].
      * assert (E : forall m, 60 <= m -> master ex30_in m = (true, true)).
        { intros m Hm. unfold master, ex30_in, follow.
          replace ((64 * m + 62) / 64) with m by (apply (Nat.div_unique _ 64 _ 62); lia).
          rewrite nth_overflow by (vm_compute; lia). reflexivity. }
        rewrite !E by lia. discriminate.
      * assert (K : forallb (fun k => implb (fst (master ex30_in k)) (implb (negb (fst (master ex30_in (S k))))
           (negb (fst (master ex30_in (S (S k))))))) (seq 0 60) = true) by (vm_compute; reflexivity).
        rewrite forallb_forall in K. specialize (K k ltac:(apply in_seq; lia)). intros A B. rewrite A, B in K.
        cbn in K. apply negb_true_iff in K. exact K.
    + apply slots_intro.
    + vm_compute. reflexivity.
  - vm_compute. reflexivity.
Qed.

(** * C92: the default EDID *)
Definition sum_of (l : list Z) : Z := fold_right Z.add 0%Z l.
(** What a source finds when it reads the whole memory in one transfer: two blocks of bytes, each
    with its sum a multiple of 256; the first begins with the EDID header, announces version 1.3 and
    one extension and has as its first descriptor a mode of 1920 by 1080 pixels; the second is a
    CEA extension of revision 3. *)
Theorem C92_default_edid : forall i j ws,
  (forall t, 64 * j + 1 <= t -> edi_hpd (i t) = true) ->
  bus default_mem 8 i j = (true, true) -> bus default_mem 8 i (S j) = (true, true) ->
  is_random_read 0 256 ws -> map (master i) (seq (j + 2) (length ws)) = ws ->
  exists b : nat -> Z,
  bits_seen true (map (bus default_mem 8 i) (seq (j + 2) (length ws))) = expected_read b 0 256 /\
  (forall k, k < 256 -> (0 <= b k < 256)%Z) /\
  (sum_of (map b (seq 0 128)) mod 256 = 0)%Z /\ (sum_of (map b (seq 128 128)) mod 256 = 0)%Z /\
  map b (seq 0 8) = [0; 255; 255; 255; 255; 255; 255; 0]%Z /\ map b [18; 19] = [1; 3]%Z /\ b 126 = 1%Z /\ map b [128; 129] = [2; 3]%Z /\
  (b 56%nat + 256 * (b 58%nat / 16) = 1920)%Z /\ (b 59%nat + 256 * (b 61%nat / 16) = 1080)%Z.
Proof.
  intros i j ws Hh B0 B1 HW HM. exists (fun k => default_mem ((0 + Z.of_nat k) mod 2 ^ 8)%Z).
  split; [apply (C28_random_read default_mem 8 i j 0%Z 256 ws); try assumption; lia|].
  split; [|vm_compute; repeat split; reflexivity].
  intros k K. assert (A : forallb (fun k => let x := default_mem ((0 + Z.of_nat k) mod 2 ^ 8)%Z in (0 <=? x)%Z && (x <? 256)%Z) (seq 0 256) = true) by (vm_compute; reflexivity).
  rewrite forallb_forall in A. specialize (A k ltac:(apply in_seq; lia)). cbv beta zeta in A. apply andb_prop in A as [A1 A2].
  apply Z.leb_le in A1. apply Z.ltb_lt in A2. lia.
Qed.
Print Assumptions C92_default_edid.

(** A source that reads all 256 bytes meets the hypotheses. *)
Definition ex92_ws : list obs :=
  start_cond 0 ++ concat (map (fun m => slot m m [] 0) (byte_bits 160 ++ [true] ++ byte_bits 0 ++ [true] ++ [true])) ++
  start_cond 1 ++ concat (map (fun m => slot m true [m] 1) (byte_bits 161 ++ [true])) ++ concat (map (fun m => slot m m [] 2) (read_slots 256)).
Definition ex92_in : nat -> ed_in := follow (map (fun o => (o, true)) ([(true, true); (true, true)] ++ ex92_ws)).
Lemma follow_master : forall l k, k < length l -> master (follow (map (fun o => (o, true)) l)) k = nth k l (true, true).
Proof.
  intros l k K. unfold master, follow. replace ((64 * k + 62) / 64) with k.
  - set (f := fun o : bool * bool => (o, true)). rewrite (nth_indep _ _ (f (true, true))) by (rewrite map_length; exact K).
    rewrite map_nth. unfold f. destruct (nth k l (true, true)). reflexivity.
  - symmetry. rewrite Nat.mul_comm, Nat.div_add_l by lia. change (62 / 64) with 0. lia.
Qed.
Example C92_example : is_random_read 0 256 ex92_ws /\ map (master ex92_in) (seq 2 (length ex92_ws)) = ex92_ws /\
  (forall t, edi_hpd (ex92_in t) = true) /\ bus default_mem 8 ex92_in 0 = (true, true) /\ bus default_mem 8 ex92_in 1 = (true, true).
Proof.
  split; [unfold ex92_ws; apply Random_read; apply slots_intro|]. split; [|split; [|split]].
  - unfold ex92_in. generalize ex92_ws as l. intros l. set (L := [(true, true); (true, true)] ++ l).
    assert (P : forall n, n <= length l -> map (master (follow (map (fun o => (o, true)) L))) (seq 2 n) = firstn n l).
    { induction n as [|n IH]; intros N; [reflexivity|]. rewrite seq_S, map_app, IH by lia. cbn [map].
      rewrite follow_master by (change (length L) with (2 + length l); lia). change (nth (2 + n) L (true, true)) with (nth n l (true, true)).

      clear - N. revert n N. induction l as [|x l IH]; intros [|n] N; cbn [length firstn nth app] in *; try lia; [reflexivity|]. f_equal. apply IH. lia. }
    rewrite P by lia. apply firstn_all.
  - intros t. apply follow_hpd. rewrite forallb_forall. intros x X. apply in_map_iff in X as (o & <- & _). reflexivity.
  - vm_compute. reflexivity.
  - vm_compute. reflexivity.
Qed.
