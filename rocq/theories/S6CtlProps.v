(** C122-C124: both delay lines of a Spartan-6 data pair behind one register, their resets, and the phase register. *)
From Coq Require Import ZArith List Bool Arith Lia.
From Verif Require Import Hdl Trace SerialModel CdcModel CdcProofs CdcProps StatusModel S6CtlModel.
Import ListNotations.
Open Scope nat_scope.

Inductive line := Master | Slave.
(** Bits of dly_ctl and dly_busy; ports of the two delay lines. *)
Definition cal_bit (ln : line) : Z := match ln with Master => 0 | Slave => 2 end.
Definition rst_bit (ln : line) : Z := match ln with Master => 1 | Slave => 3 end.
Definition busy_pos (ln : line) : Z := match ln with Master => 0 | Slave => 1 end.
Definition port_cal (ln : line) (s : dl_st) : bool := ps_o (match ln with Master => dl_mcal s | Slave => dl_scal s end).
Definition port_rst (ln : line) (s : dl_st) : bool := ps_o (match ln with Master => dl_mrst s | Slave => dl_srst s end).
Definition port_inc (s : dl_st) : bool := ps_o (dl_inc s).
Definition port_ce (s : dl_st) : bool := ps_o (dl_inc s) || ps_o (dl_dec s).
Definition port_busy (ln : line) (i : dl_in) : bool := match ln with Master => dl_mbusy i | Slave => dl_sbusy i end.

(** * C122 *)
Section C122.
(** Any schedule of the two clocks, any writes, any behaviour of the two delay lines and of the phase detector. *)
Variables (w : Z) (i : nat -> dl_in).
Definition s6 (n : nat) : dl_st := dl_run w i n.
(** Software writes dly_ctl with bit [k] set. *)
Definition sets (k : Z) (n : nat) : Prop := dl_sys (i n) = true /\ dl_re (i n) = true /\ Z.testbit (dl_r (i n)) k = true.
(** ... a command for line [ln]. *)
Definition commands (ln : line) (n : nat) : Prop := sets (cal_bit ln) n \/ sets 4 n \/ sets 5 n.
(** Its bit of dly_busy, as software reads it. *)
Definition reads_busy (ln : line) (n : nat) : bool := Z.testbit (dl_busy (s6 n)) (busy_pos ln).
(** Software writes commands for a line only while the line's busy bit is 0. *)
Definition patient (ln : line) : Prop := forall n, commands ln n -> reads_busy ln n = false.
Definition last_command (ln : line) (c n : nat) : Prop := commands ln c /\ c < n /\ forall t, c < t < n -> ~ commands ln t.
(** The line is told to do something. *)
Definition told (ln : line) (n : nat) : Prop := dl_pix (i n) = true /\ (port_cal ln (s6 n) = true \/ port_ce (s6 n) = true).
(** The line shows that it is ready. *)
Definition ready (ln : line) (n : nat) : Prop := dl_pix (i n) = true /\ port_busy ln (i n) = false.

Definition proj (ln : line) (n : nat) : dc_in :=
  {| dci_sys := dl_sys (i n); dci_pix := dl_pix (i n); dci_cal := dl_cmd (cal_bit ln) (i n); dci_inc := dl_cmd 4 (i n);
     dci_dec := dl_cmd 5 (i n); dci_busy := port_busy ln (i n) |}.
Definition view (ln : line) (s : dl_st) : dc_st :=
  match ln with
  | Master => {| dc_cal := dl_mcal s; dc_inc := dl_inc s; dc_dec := dl_dec s; dc_pend := dl_mpend s; dc_done_i := dl_mfin s; dc_done := dl_mdone s; dc_spend := dl_msys s |}
  | Slave => {| dc_cal := dl_scal s; dc_inc := dl_inc s; dc_dec := dl_dec s; dc_pend := dl_spend s; dc_done_i := dl_sfin s; dc_done := dl_sdone s; dc_spend := dl_ssys s |}
  end.
Lemma proj_run : forall ln n, dc_run (proj ln) n = view ln (s6 n).
Proof.
  intros ln n. induction n as [|n IH]; [destruct ln; reflexivity|].
  change (dc_run (proj ln) (S n)) with (dc_step (dc_run (proj ln) n) (proj ln n)). change (s6 (S n)) with (dl_step w (s6 n) (i n)). rewrite IH.
  destruct ln; reflexivity.
Qed.
Lemma proj_written : forall ln n, written (proj ln) n <-> commands ln n.
Proof.
  intros ln n. unfold written, commands, sets, proj, dl_cmd, bit; cbn [dci_sys dci_cal dci_inc dci_dec]. rewrite !andb_true_iff. tauto.
Qed.
Lemma proj_busy : forall ln n, busy_bit (proj ln) n = reads_busy ln n.
Proof.
  intros ln n. unfold busy_bit, reads_busy. rewrite proj_run. destruct ln; unfold dc_status, view, dl_busy, busy_pos; cbn [dc_spend]; destruct (dl_msys (s6 n)), (dl_ssys (s6 n)); reflexivity.
Qed.
Lemma proj_acts : forall ln n, acts (proj ln) n <-> told ln n.
Proof. intros ln n. unfold acts, told. rewrite proj_run. destruct ln; reflexivity. Qed.
Lemma proj_waits : forall ln, patient ln -> waits (proj ln).
Proof. intros ln P n H. rewrite proj_busy. apply P, proj_written, H. Qed.
Lemma proj_latest : forall ln c n, latest (proj ln) c n <-> last_command ln c n.
Proof.
  intros ln c n. unfold latest, last_command. rewrite proj_written. split; intros (A & B & C); (split; [exact A|]); (split; [exact B|]); intros t T Q; apply (C t T), proj_written, Q.
Qed.

(** When the busy bit of a line reads 0, the line has been told its latest command, exactly that and exactly once, and has been ready since;
    the other line, the resets and the phase detector do not matter. *)
Theorem C122_executed : forall ln, patient ln -> forall c n, last_command ln c n -> reads_busy ln n = false ->
  exists u v, c < u < v /\ v < n /\ (forall t, c <= t < n -> (told ln t <-> t = u)) /\
  port_cal ln (s6 u) = Z.testbit (dl_r (i c)) (cal_bit ln) /\ port_inc (s6 u) = Z.testbit (dl_r (i c)) 4 /\
  port_ce (s6 u) = Z.testbit (dl_r (i c)) 4 || Z.testbit (dl_r (i c)) 5 /\
  ready ln v /\ forall t, u < t < v -> ~ ready ln t.
Proof.
  intros ln P c n L B. rewrite <- proj_busy in B. pose proof L as L'. apply proj_latest in L.
  destruct (C74_executed (proj ln) (proj_waits ln P) c n L B) as (u & v & (A & C1 & C2 & C3) & CU & VN & ON & V1 & V2 & V3).
  destruct L' as (LC & _). assert (RE : dl_re (i c) = true) by (destruct LC as [LC|[LC|LC]]; apply LC).
  exists u, v. split; [exact CU|]. split; [exact VN|]. split.
  { intros t T. split; [intros X; apply ON; [exact T|apply proj_acts, X]|]. intros ->. apply proj_acts, A. }
  rewrite proj_run in C1, C2, C3. unfold proj, dl_cmd, bit in C1, C2, C3; cbn [dci_cal dci_inc dci_dec] in C1, C2, C3. rewrite RE in C1, C2, C3; cbn [andb] in C1, C2, C3.
  split; [rewrite <- C1; destruct ln; reflexivity|]. split; [rewrite <- C2; destruct ln; reflexivity|]. split; [rewrite <- C3; destruct ln; reflexivity|].
  split; [split; [exact V1|exact V2]|]. intros t T [R1 R2]. specialize (V3 t T R1). unfold proj in V3; cbn [dci_busy] in V3. congruence.
Qed.

(** A line is not told anything before it has been ready again after what it was told before. *)
Theorem C122_undisturbed : forall ln, patient ln -> forall u u', told ln u -> told ln u' -> u < u' -> exists v, u < v < u' /\ ready ln v.
Proof.
  intros ln P u u' T T' U. apply proj_acts in T, T'. pose proof (proj_waits ln P) as W.
  apply (acts_ph (proj ln) W) in T, T'. destruct T as [T1 T2], T' as [_ T2'].
  assert (G : forall d, (exists v, u < v < S u + d /\ ready ln v) \/ a_ph (arun (proj ln) (S u + d)) = Work).
  { induction d as [|d [(v & V & R)|IH]].
    - right. rewrite Nat.add_0_r, arun_S. unfold abs_step. rewrite T2, T1. reflexivity.
    - left. exists v. split; [lia|exact R].
    - rewrite Nat.add_succ_r. rewrite arun_S. unfold abs_step. rewrite IH. destruct (dci_pix (proj ln (S u + d)) && negb (dci_busy (proj ln (S u + d)))) eqn:E.
      + left. exists (S u + d). split; [lia|]. apply andb_prop in E as [E1 E2]. split; [exact E1|]. apply negb_true_iff, E2.
      + right. exact IH. }
  destruct (G (u' - S u)) as [(v & V & R)|X]; replace (S u + (u' - S u)) with u' in * by lia.
  - exists v. split; [lia|exact R].
  - congruence.
Qed.

(** Steps up and down: what software has written and what the lines (they share INC and CE) have been told. *)
Definition steps_up (n : nat) : bool := dl_pix (i n) && port_ce (s6 n) && port_inc (s6 n).
Definition steps_down (n : nat) : bool := dl_pix (i n) && port_ce (s6 n) && negb (port_inc (s6 n)).
Definition writes_up (n : nat) : bool := dl_sys (i n) && dl_re (i n) && Z.testbit (dl_r (i n)) 4.
Definition writes_down (n : nat) : bool := dl_sys (i n) && dl_re (i n) && negb (Z.testbit (dl_r (i n)) 4) && Z.testbit (dl_r (i n)) 5.
Theorem C122_steps : forall ln, patient ln -> forall n, reads_busy ln n = false ->
  occurrences steps_up 0 n = occurrences writes_up 0 n /\ occurrences steps_down 0 n = occurrences writes_down 0 n.
Proof.
  intros ln P. pose proof (proj_waits ln P) as W.
  assert (G : forall n, let q := arun (proj ln) n in let go := match a_ph q with Go0 | Go1 | Go2 => true | _ => false end in
    occurrences writes_up 0 n = occurrences steps_up 0 n + (if go && a_i q then 1 else 0) /\
    occurrences writes_down 0 n = occurrences steps_down 0 n + (if go && (negb (a_i q) && a_d q) then 1 else 0)).
  { induction n as [|n IH]; [split; reflexivity|]. cbv zeta in IH |- *. cbn [occurrences Nat.add]. rewrite arun_S.
    destruct (arun_sim (proj ln) W n) as [E K]. rewrite proj_run in E.
    assert (EI : port_inc (s6 n) = match a_ph (arun (proj ln) n) with Go2 => a_i (arun (proj ln) n) | _ => false end)
      by (rewrite <- emb_inc, <- E; destruct ln; reflexivity).
    assert (EC : port_ce (s6 n) = match a_ph (arun (proj ln) n) with Go2 => a_i (arun (proj ln) n) || a_d (arun (proj ln) n) | _ => false end)
      by (rewrite <- emb_ce, <- E; destruct ln; reflexivity).
    assert (WR : (a_ph (arun (proj ln) n) <> Idle -> writes_up n = false /\ writes_down n = false)).
    { intros NI. assert (N : ~ commands ln n) by (intros C; apply proj_written, (written_ph (proj ln) W) in C; contradiction).
      unfold writes_up, writes_down. destruct (dl_sys (i n)) eqn:E1; [|split; reflexivity]. destruct (dl_re (i n)) eqn:E2; [|split; reflexivity]. cbn [andb].
      destruct (Z.testbit (dl_r (i n)) 4) eqn:E4; [exfalso; apply N; right; left; split; [exact E1|split; [exact E2|exact E4]]|].
      destruct (Z.testbit (dl_r (i n)) 5) eqn:E5; [exfalso; apply N; right; right; split; [exact E1|split; [exact E2|exact E5]]|]. split; reflexivity. }
    unfold steps_up at 2, steps_down at 2. rewrite EI, EC. set (q := arun (proj ln) n) in *. destruct IH as [I1 I2].
    unfold abs_step. destruct (a_ph q) eqn:PH; cbn [andb negb orb] in I1, I2; rewrite ?andb_false_r; cbn [andb];
      try (destruct (WR ltac:(discriminate)) as [-> ->]).
    - assert (D : dci_write (proj ln n) = dl_sys (i n) && dl_re (i n) && (Z.testbit (dl_r (i n)) (cal_bit ln) || Z.testbit (dl_r (i n)) 4 || Z.testbit (dl_r (i n)) 5)).
      { unfold dci_write, proj, dl_cmd, bit; cbn [dci_sys dci_cal dci_inc dci_dec]. destruct (dl_sys (i n)), (dl_re (i n)); reflexivity. }
      assert (DI : dci_inc (proj ln n) = dl_re (i n) && Z.testbit (dl_r (i n)) 4) by reflexivity.
      assert (DD : dci_dec (proj ln n) = dl_re (i n) && Z.testbit (dl_r (i n)) 5) by reflexivity.
      rewrite D. unfold writes_up at 2, writes_down at 2. revert DI DD.
      destruct (dl_sys (i n)), (dl_re (i n)), (Z.testbit (dl_r (i n)) (cal_bit ln)), (Z.testbit (dl_r (i n)) 4), (Z.testbit (dl_r (i n)) 5); intros DI DD;
        cbn [andb orb a_ph a_i a_d negb]; rewrite ?PH, ?DI, ?DD; cbn [andb negb]; rewrite ?andb_false_r; lia.
    - destruct (dci_pix (proj ln n)); cbn [a_ph set_ph a_i a_d]; rewrite ?PH; cbn [andb]; lia.
    - destruct (dci_pix (proj ln n)); cbn [a_ph set_ph a_i a_d]; rewrite ?PH; cbn [andb]; lia.
    - change (dci_pix (proj ln n)) with (dl_pix (i n)). destruct (dl_pix (i n)); cbn [a_ph set_ph a_i a_d andb]; rewrite ?PH; cbn [andb];
        destruct (a_i q), (a_d q); cbn [andb negb orb] in *; lia.
    - destruct (dci_pix (proj ln n) && negb (dci_busy (proj ln n))); cbn [a_ph set_ph a_i a_d]; rewrite ?PH; cbn [andb]; lia.
    - destruct (dci_pix (proj ln n)); cbn [a_ph set_ph a_i a_d]; rewrite ?PH; cbn [andb]; lia.
    - destruct (dci_sys (proj ln n)); cbn [a_ph set_ph a_i a_d]; rewrite ?PH; cbn [andb]; lia.
    - destruct (dci_sys (proj ln n)); cbn [a_ph set_ph a_i a_d]; rewrite ?PH; cbn [andb]; lia.
    - destruct (dci_sys (proj ln n)); cbn [a_ph set_ph a_i a_d]; rewrite ?PH; cbn [andb]; lia. }
  intros n B. specialize (G n). cbv zeta in G. rewrite <- proj_busy in B. unfold busy_bit in B. destruct (arun_sim (proj ln) W n) as [E _]. rewrite E, emb_status in B.
  destruct (a_ph (arun (proj ln) n)); try discriminate. cbn [andb] in G. lia.
Qed.

(** The bits return to 0. *)
Theorem C122_returns : forall ln, patient ln -> (forall n, exists t, n <= t /\ dl_sys (i t) = true) -> (forall n, exists t, n <= t /\ ready ln t) ->
  forall c, commands ln c -> exists n, last_command ln c n /\ reads_busy ln n = false.
Proof.
  intros ln P Sy Px c C. apply proj_written in C.
  destruct (C74_returns (proj ln) (proj_waits ln P) Sy) with (c := c) as (n & L & B); [intros n; destruct (Px n) as (t & T & R1 & R2); exists t; auto|exact C|].
  exists n. split; [apply proj_latest, L|rewrite <- proj_busy; exact B].
Qed.
End C122.
Print Assumptions C122_executed.
Print Assumptions C122_undisturbed.
Print Assumptions C122_steps.
Print Assumptions C122_returns.

(** A run: calibrate both lines, then one step up of both; the master needs two clocks of pix2x, the slave five. *)
Definition ex_dl (n : nat) : dl_in :=
  {| dl_sys := true; dl_pix := Nat.even n; dl_re := (n =? 3) || (n =? 40); dl_r := if n =? 3 then 5%Z else 16%Z; dl_pre := false;
     dl_mbusy := (10 <=? n) && (n <? 14); dl_sbusy := (10 <=? n) && (n <? 20) || (46 <=? n) && (n <? 52); dl_valid := false; dl_incdec := false; dl_race := 0%Z |}.
Lemma ex_dl_commands : forall ln n, commands ex_dl ln n -> n = 3 \/ n = 40.
Proof.
  intros ln n C. assert (R : dl_re (ex_dl n) = true) by (destruct C as [C|[C|C]]; apply C). cbn [dl_re ex_dl] in R.
  apply orb_prop in R as [R|R]; apply Nat.eqb_eq in R; auto.
Qed.
Example ex_dl_patient : forall ln, patient 8 ex_dl ln.
Proof. intros ln n C. destruct (ex_dl_commands ln n C) as [-> | ->]; destruct ln; vm_compute; reflexivity. Qed.
Example C122_case : exists u v, 40 < u < v /\ v < 80 /\ told 8 ex_dl Slave u /\ ready ex_dl Slave v /\ port_inc (s6 8 ex_dl u) = true /\
  reads_busy 8 ex_dl Slave 60 = false /\ reads_busy 8 ex_dl Slave 54 = true /\ reads_busy 8 ex_dl Master 54 = false.
Proof.
  destruct (C122_executed 8 ex_dl Slave (ex_dl_patient Slave) 40 80) as (u & v & U & V & T & _ & I & _ & R & _).
  - split; [right; left; vm_compute; auto|]. split; [lia|]. intros t T C. destruct (ex_dl_commands _ _ C); lia.
  - vm_compute. reflexivity.
  - exists u, v. split; [exact U|]. split; [exact V|]. split; [apply (proj2 (T u ltac:(lia)) eq_refl)|]. split; [exact R|]. split; [exact I|]. vm_compute. auto.
Qed.

(** Both bits have to be looked at: software that waits for the master's bit only steps both lines while the slave is still calibrating. *)
Definition ex_one_bit (n : nat) : dl_in :=
  {| dl_sys := true; dl_pix := true; dl_re := (n =? 0) || (n =? 10); dl_r := if n =? 0 then 4%Z else 16%Z; dl_pre := false;
     dl_mbusy := false; dl_sbusy := 3 <? n; dl_valid := false; dl_incdec := false; dl_race := 0%Z |}.
Theorem C122_one_bit_not_enough : exists w i, patient w i Master /\ exists u u', u < u' /\ told w i Slave u /\ told w i Slave u' /\ forall v, u < v -> ~ ready i Slave v.
Proof.
  exists 8%Z, ex_one_bit. split.
  - intros n C. assert (N : n = 10).
    { unfold commands, sets in C. cbn [dl_re dl_r ex_one_bit] in C. destruct (Nat.eqb_spec n 0) as [E0|N0]; [destruct C as [(_ & _ & C)|[(_ & _ & C)|(_ & _ & C)]]; discriminate C|].
      destruct (Nat.eqb_spec n 10) as [E1|N1]; [exact E1|]. destruct C as [(_ & C & _)|[(_ & C & _)|(_ & C & _)]]; discriminate C. }
    subst n. vm_compute. reflexivity.
  - exists 3, 13. split; [lia|]. split; [vm_compute; auto|]. split; [vm_compute; auto|]. intros v V [_ R]. cbn [port_busy dl_sbusy ex_one_bit] in R.
    apply Nat.ltb_ge in R. lia.
Qed.
Print Assumptions C122_one_bit_not_enough.

(** * C123: resets of the delay lines *)
Section C123.
Variables (w : Z) (i : nat -> dl_in).
Let fs n := dl_sys (i n).
Let fp n := dl_pix (i n).
Lemma rst_run : forall ln n, (match ln with Master => dl_mrst (s6 w i n) | Slave => dl_srst (s6 w i n) end) = ps_run (cdc_inp fs fp (fun n => dl_cmd (rst_bit ln) (i n))) n.
Proof.
  intros ln n. induction n as [|n IH]; [destruct ln; reflexivity|]. rewrite ps_run_S. unfold eA, eB, cdc_inp; cbn [fst snd]. change (ps_run (fun n0 => (fs n0, fp n0, dl_cmd (rst_bit ln) (i n0))) n) with (ps_run (cdc_inp fs fp (fun n => dl_cmd (rst_bit ln) (i n))) n).
  rewrite <- IH. change (s6 w i (S n)) with (dl_step w (s6 w i n) (i n)). destruct ln; reflexivity.
Qed.
Lemma rst_seen : forall ln n, port_rst ln (s6 w i n) = seen fs fp (fun n => dl_cmd (rst_bit ln) (i n)) n.
Proof. intros ln n. unfold port_rst, seen. rewrite <- rst_run. destruct ln; reflexivity. Qed.
Lemma rst_given : forall ln n, given fs (fun n => dl_cmd (rst_bit ln) (i n)) n <-> sets i (rst_bit ln) n.
Proof. intros ln n. unfold given, sets, dl_cmd, bit, fs. rewrite andb_true_iff. tauto. Qed.

(** A reset reaches its line at the third edge of pix2x, if no other reset of the same line is written in the same clock of pix2x. *)
Theorem C123_delivered_partial : forall ln p n, sets i (rst_bit ln) p -> (forall q, sets i (rst_bit ln) q -> q <> p -> separated (fun t => dl_pix (i t)) p q) ->
  p < n -> between (fun t => dl_pix (i t)) p n = 2 -> port_rst ln (s6 w i n) = true.
Proof.
  intros ln p n G S L B. rewrite rst_seen. apply (C73_delivered fs fp _ p n); [apply rst_given, G| |exact L|exact B].
  intros q Q N. apply S; [apply rst_given, Q|exact N].
Qed.
(** The line is never reset otherwise, whatever commands are written. *)
Theorem C123_nothing_else_partial : forall ln n, port_rst ln (s6 w i n) = true -> exists p, p < n /\ sets i (rst_bit ln) p /\ between (fun t => dl_pix (i t)) p n = 2.
Proof.
  intros ln n H. rewrite rst_seen in H. destruct (C73_nothing_else fs fp _ n H) as (p & P & G & B). exists p. split; [exact P|]. split; [apply rst_given, G|exact B].
Qed.
End C123.
Print Assumptions C123_delivered_partial.
Print Assumptions C123_nothing_else_partial.

(** The busy bits say nothing about resets: both bits read 0, software writes a reset twice, the lines are never reset. *)
Definition ex_two_resets (n : nat) : dl_in :=
  {| dl_sys := true; dl_pix := n mod 5 =? 1; dl_re := (n =? 2) || (n =? 3); dl_r := 10%Z; dl_pre := false;
     dl_mbusy := false; dl_sbusy := false; dl_valid := false; dl_incdec := false; dl_race := 0%Z |}.
Theorem C123_resets_arrive_refuted :
  ~ (forall w i, patient w i Master -> patient w i Slave -> (forall n ln, sets i (rst_bit ln) n -> dl_busy (s6 w i n) = 0%Z) ->
     (forall n, exists t, n <= t /\ dl_pix (i t) = true) ->
     forall ln p, sets i (rst_bit ln) p -> exists n, p < n /\ port_rst ln (s6 w i n) = true).
Proof.
  intros H.
  assert (NC : forall ln n, ~ commands ex_two_resets ln n).
  { intros ln n C. unfold commands, sets in C. cbn [dl_r ex_two_resets] in C. destruct ln; destruct C as [(_ & _ & C)|[(_ & _ & C)|(_ & _ & C)]]; discriminate C. }
  destruct (H 8%Z ex_two_resets) with (ln := Master) (p := 2) as (n & N & S).
  - intros n C. destruct (NC _ _ C).
  - intros n C. destruct (NC _ _ C).
  - intros n ln (_ & R & _). cbn [dl_re ex_two_resets] in R. apply orb_prop in R as [R|R]; apply Nat.eqb_eq in R as ->; vm_compute; reflexivity.
  - intros n. exists (5 * n + 1). split; [lia|]. cbn [dl_pix ex_two_resets]. replace (5 * n + 1) with (1 + n * 5) by lia. rewrite Nat.mod_add by lia. reflexivity.
  - vm_compute. auto.
  - rewrite rst_seen in S. rewrite (C73_close_commands_cancel _ _ _ 2 3) in S; [discriminate|vm_compute; auto|vm_compute; auto|lia| |].
    + intros r [_ G]. unfold dl_cmd in G. apply andb_prop in G as [G _]. cbn [dl_re ex_two_resets] in G. apply orb_prop in G as [G|G]; apply Nat.eqb_eq in G; auto.
    + intros (t & T & E). cbn in T. assert (t = 3) as -> by lia. discriminate E.
Qed.
Print Assumptions C123_resets_arrive_refuted.
Definition ex_reset (n : nat) : dl_in :=
  {| dl_sys := true; dl_pix := n mod 5 =? 1; dl_re := (n =? 2) || (n =? 7); dl_r := 10%Z; dl_pre := false;
     dl_mbusy := false; dl_sbusy := false; dl_valid := false; dl_incdec := false; dl_race := 0%Z |}.
Example C123_case : port_rst Slave (s6 8 ex_reset 15) = true.
Proof.
  apply (C123_delivered_partial 8 ex_reset Slave 2 15); [vm_compute; auto| |lia|vm_compute; reflexivity].
  intros q (_ & R & _) N. cbn [dl_re ex_reset] in R. apply orb_prop in R as [R|R]; apply Nat.eqb_eq in R as ->; [contradiction|]. exists 6. split; [cbn; lia|reflexivity].
Qed.
