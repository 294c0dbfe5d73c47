(** Final theorems about the crossings that carry words: the capture FIFO
    (C77) and the video output's parameter queue (C78). *)
From Coq Require Import ZArith List Bool Lia Arith.
From Verif Require Import Hdl Trace CdcProofs AnalysisModel FifoModel FifoProofs.
Import ListNotations.
Open Scope nat_scope.

(** ** C77: capture FIFO *)
Section Capture.
Variables (n : Z) (F : nat) (mem : list (bool * list Z)) (ra : Z) (i : nat -> fe_in).
Let st (t : nat) : fe_st := fe_run n F mem ra i t.

(** Word pushed by the packer in the pix clock ending at instant [t]. *)
Definition pushed (t : nat) : option (bool * list Z) :=
  if fei_pix (i t) then pk_push (fe_pk (fe_run n F mem ra i t)) else None.
(** The overflow condition at a pix edge. *)
Definition dropped (t : nat) : bool := fei_pix (i t) && fe_drop n (fe_run n F mem ra i t).
(** Pushed and not dropped. *)
Definition kept (t : nat) : option (bool * list Z) := if dropped t then None else pushed t.
(** Word handed over on the frame stream at a sys edge. *)
Definition delivered (t : nat) : option (bool * list Z) :=
  if fei_sys (i t) && fei_ready (i t) then fe_frame (fe_run n F mem ra i t) else None.

Let fi (t : nat) : af_in (bool * list Z) := fe_fifo_in (fe_run n F mem ra i t) (i t).

Lemma fe_fifo_run : forall t, fe_fifo (fe_run n F mem ra i t) = af_run n mem ra fi t.
Proof.
  induction t as [|t IH]; [reflexivity|]. unfold af_run. cbn [at_].
  change (fe_run n F mem ra i (S t)) with (fe_step n F (fe_run n F mem ra i t) (i t)). unfold fe_step. cbn [fe_fifo].
  rewrite IH. reflexivity.
Qed.

Lemma kept_fifo : forall t, kept t = if f_wr _ n mem ra fi t then Some (ai_d (fi t)) else None.
Proof.
  intros t. unfold kept, dropped, pushed, fe_drop, f_wr, f_st. rewrite fe_fifo_run.
  unfold fi, fe_fifo_in, pk_push; cbn [ai_w ai_we ai_d].
  destruct (fei_pix (i t)); cbn [andb]; [|reflexivity].
  destruct (pk_valid (fe_pk (fe_run n F mem ra i t))); cbn [andb].
  - destruct (af_writable _ _); reflexivity.
  - rewrite andb_false_r. reflexivity.
Qed.

Lemma delivered_fifo : forall t, delivered t = if f_rd _ n mem ra fi t then Some (af_dout fe_word0 (f_st _ n mem ra fi t)) else None.
Proof.
  intros t. unfold delivered, fe_frame, f_rd, f_st. rewrite fe_fifo_run. cbn [fi fe_fifo_in ai_r ai_re].
  destruct (fei_sys (i t)), (fei_ready (i t)); cbn [andb]; try reflexivity; destruct (af_readable _); reflexivity.
Qed.

Lemma kept_list : forall t, collect kept 0 t = f_written _ n mem ra fi t.
Proof. intros t. apply collect_ext. intros u _. apply kept_fifo. Qed.
Lemma delivered_list : forall t, collect delivered 0 t = f_read _ n fe_word0 mem ra fi t.
Proof. intros t. apply collect_ext. intros u _. apply delivered_fifo. Qed.
End Capture.

(** The words delivered in the sys domain are the words pushed and not dropped
    in the pix domain, in the same order, none missing and none repeated, and
    never more than the depth of the FIFO behind. *)
Theorem C77_in_order :
  forall (n : Z) (F : nat) mem ra (i : nat -> fe_in), (1 <= n)%Z -> Z.of_nat (length mem) = (2 ^ n)%Z ->
  forall t, collect (delivered n F mem ra i) 0 t
            = firstn (length (collect (delivered n F mem ra i) 0 t)) (collect (kept n F mem ra i) 0 t) /\
  length (collect (delivered n F mem ra i) 0 t) <= length (collect (kept n F mem ra i) 0 t)
  <= length (collect (delivered n F mem ra i) 0 t) + 2 ^ Z.to_nat n.
Proof.
  intros n F mem ra i N HM t. rewrite delivered_list, kept_list.
  pose proof (f_order _ n fe_word0 mem ra (fun t => fe_fifo_in (fe_run n F mem ra i t) (i t)) N HM t) as O.
  split; [exact O|]. split.
  - rewrite O at 1. rewrite firstn_length. lia.
  - pose proof (f_capacity _ n fe_word0 mem ra (fun t => fe_fifo_in (fe_run n F mem ra i t) (i t)) N HM t) as Q.
    rewrite <- (f_written_length _ n mem ra), <- (f_read_length _ n fe_word0 mem ra) in Q.
    apply Nat2Z.inj_le. rewrite Nat2Z.inj_add, Nat2Z.inj_pow, Z2Nat.id by lia. exact Q.
Qed.
Print Assumptions C77_in_order.

(** A word pushed before instant [u] and not yet taken is on offer as soon as
    there have been two sys edges since. *)
Theorem C77_prompt :
  forall (n : Z) (F : nat) mem ra (i : nat -> fe_in), (1 <= n)%Z -> Z.of_nat (length mem) = (2 ^ n)%Z ->
  forall u t, u <= t -> 2 <= occurrences (fun v => fei_sys (i v)) u (t - u) ->
  let taken := length (collect (delivered n F mem ra i) 0 t) in
  taken < length (collect (kept n F mem ra i) 0 u) ->
  fe_frame (fe_run n F mem ra i t) = Some (nth taken (collect (kept n F mem ra i) 0 t) fe_word0).
Proof.
  intros n F mem ra i N HM u t U O taken H. unfold taken in *. rewrite delivered_list, kept_list in *.
  set (fi := fun t => fe_fifo_in (fe_run n F mem ra i t) (i t)) in *.
  pose proof (f_written_length _ n mem ra fi u) as WL. pose proof (f_read_length _ n fe_word0 mem ra fi t) as RL.
  assert (R : af_readable (f_st _ n mem ra fi t) = true) by (apply (f_available _ n fe_word0 mem ra fi N HM u t U O); lia).
  unfold fe_frame. rewrite fe_fifo_run. unfold f_st in R. fold fi. rewrite R. f_equal.
  destruct (f_inv_all _ n fe_word0 mem ra fi N HM t) as (P0 & P1 & C0 & C1 & I).
  etransitivity; [apply (dout_spec _ _ _ _ _ _ N _ _ _ _ _ I R)|]. f_equal. lia.
Qed.
Print Assumptions C77_prompt.

(** A word is dropped only if, two pix edges earlier, as many kept words as the
    FIFO holds had not been taken. *)
Theorem C77_drop_means_full :
  forall (n : Z) (F : nat) mem ra (i : nat -> fe_in), (1 <= n)%Z -> Z.of_nat (length mem) = (2 ^ n)%Z ->
  forall u t, u <= t -> 2 <= occurrences (fun v => fei_pix (i v)) u (t - u) -> dropped n F mem ra i t = true ->
  length (collect (delivered n F mem ra i) 0 u) + 2 ^ Z.to_nat n <= length (collect (kept n F mem ra i) 0 t).
Proof.
  intros n F mem ra i N HM u t U O D. rewrite delivered_list, kept_list.
  set (fi := fun t => fe_fifo_in (fe_run n F mem ra i t) (i t)) in *.
  pose proof (f_written_length _ n mem ra fi t) as WL. pose proof (f_read_length _ n fe_word0 mem ra fi u) as RL.
  apply Nat2Z.inj_le. rewrite Nat2Z.inj_add, Nat2Z.inj_pow, Z2Nat.id by lia. rewrite WL, RL. change (Z.of_nat 2) with 2%Z.
  destruct (Z.lt_ge_cases (f_P _ n mem ra fi t) (f_C _ n mem ra fi u + 2 ^ n)); [|lia]. exfalso.
  assert (W : af_writable n (f_st _ n mem ra fi t) = true) by (apply (f_room _ n fe_word0 mem ra fi N HM u t U O); lia).
  unfold dropped, fe_drop in D. rewrite fe_fifo_run in D. unfold f_st in W. fold fi in D. rewrite W in D.
  rewrite andb_false_r, andb_false_r in D. discriminate.
Qed.
Print Assumptions C77_drop_means_full.

(** The word on offer does not change until it is taken. *)
Theorem C77_held :
  forall (n : Z) (F : nat) mem ra (i : nat -> fe_in), (1 <= n)%Z -> Z.of_nat (length mem) = (2 ^ n)%Z ->
  forall t w, fe_frame (fe_run n F mem ra i t) = Some w -> fei_sys (i t) && fei_ready (i t) = false ->
  fe_frame (fe_run n F mem ra i (S t)) = Some w.
Proof.
  intros n F mem ra i N HM t w E H. set (fi := fun t => fe_fifo_in (fe_run n F mem ra i t) (i t)) in *.
  unfold fe_frame in *. rewrite fe_fifo_run in *. fold fi in E |- *.
  destruct (af_readable (af_run n mem ra fi t)) eqn:R; [|discriminate]. injection E as <-.
  destruct (f_held _ n fe_word0 mem ra fi N HM t) as [A B]; [exact R| |unfold f_st in A, B; rewrite A, B; reflexivity].
  unfold f_rd. cbn [fi fe_fifo_in ai_r ai_re]. destruct (fei_sys (i t)); cbn [andb] in *; [|reflexivity]. rewrite H. apply andb_false_r.
Qed.
Print Assumptions C77_held.

(** A concrete schedule: pix and sys edges coincide in part, the receiver of the
    words pauses, one word is dropped and all others arrive in order. *)
Definition ex_fe_in (t : nat) : fe_in :=
  {| fei_pix := true; fei_sys := Nat.eqb (t mod 3) 0;
     fei_pk := {| pki_vsync := Nat.eqb t 0; pki_we := negb (Nat.eqb t 0) && (t <? 15); pki_px := Z.of_nat t |};
     fei_ready := 18 <=? t; fei_mp := 5; fei_mc := 2 |}.
Example ex_fifo_mem : Z.of_nat (length (repeat fe_word0 4)) = (2 ^ 2)%Z. Proof. reflexivity. Qed.
Example ex_fe_run :
  collect (delivered 2 2 (repeat fe_word0 4) 3 ex_fe_in) 0 60 =
    [(true, [2; 1]); (false, [4; 3]); (false, [6; 5]); (false, [8; 7])]%Z /\
  occurrences (dropped 2 2 (repeat fe_word0 4) 3 ex_fe_in) 0 60 = 3.
Proof. vm_compute. split; reflexivity. Qed.

(** ** C78: parameter queue of the video output *)
Section Params.
Variables (mem : list (list Z)) (ra : Z) (i : nat -> ini_in).
Definition regs_at (t : nat) : list Z := ini_regs (ini_run mem ra i t).
Definition enabled_at (t : nat) : bool := ini_en (ini_run mem ra i t).
(** The timing generator takes the set on offer (at the end of a frame). *)
Definition pops (t : nat) : bool :=
  ini_cd (i t) && ini_rdy (i t) && match ini_out (ini_run mem ra i t) with Some _ => true | None => false end.

Definition ini_fi (t : nat) : af_in (list Z) :=
  {| ai_w := ini_sys (i t); ai_r := ini_cd (i t); ai_we := enabled_at t; ai_d := regs_at t; ai_re := ini_rdy (i t);
     ai_mp := ini_mp (i t); ai_mc := ini_mc (i t) |}.
Lemma ini_fifo_run : forall t, ini_fifo (ini_run mem ra i t) = af_run 2 mem ra ini_fi t.
Proof.
  induction t as [|t IH]; [reflexivity|]. unfold af_run. cbn [at_].
  change (ini_run mem ra i (S t)) with (ini_step (ini_run mem ra i t) (i t)). unfold ini_step. cbn [ini_fifo]. rewrite IH. reflexivity.
Qed.
Lemma pops_fifo : forall t, pops t = f_rd _ 2 mem ra ini_fi t.
Proof.
  intros t. unfold pops, f_rd, ini_out, f_st. rewrite ini_fifo_run. cbn [ini_fi ai_r ai_re].
  destruct (ini_cd (i t)), (ini_rdy (i t)), (af_readable _); reflexivity.
Qed.
End Params.

(** Instant of the [k]-th occurrence (from 0) of [p] before [t]. *)
Fixpoint instant (p : nat -> bool) (k t : nat) : nat :=
  match t with O => 0 | S m => if p m && Nat.eqb (occurrences p 0 m) k then m else instant p k m end.
Lemma instant_spec : forall p k t, k < occurrences p 0 t ->
  let u := instant p k t in u < t /\ p u = true /\ occurrences p 0 u = k.
Proof.
  intros p k. induction t as [|t IH]; intros H; [cbn in H; lia|]. cbn [occurrences Nat.add] in H. cbn [instant].
  destruct (p t) eqn:E; cbn [andb].
  - destruct (Nat.eqb_spec (occurrences p 0 t) k) as [Q|Q].
    + split; [lia|]. split; [exact E|exact Q].
    + destruct (IH ltac:(lia)) as (A & B & C). repeat split; [lia|exact B|exact C].
  - destruct (IH ltac:(lia)) as (A & B & C). repeat split; [lia|exact B|exact C].
Qed.
Lemma collect_instant : forall (A : Type) (p : nat -> bool) (f : nat -> A) d t u, u < t -> p u = true ->
  nth (occurrences p 0 u) (collect (fun v => if p v then Some (f v) else None) 0 t) d = f u.
Proof.
  intros A p f d t u U E.
  assert (LN : length (collect (fun v => if p v then Some (f v) else None) 0 u) = occurrences p 0 u).
  { rewrite collect_length. apply occurrences_ext. intros v _. destruct (p v); reflexivity. }
  replace t with (u + (1 + (t - u - 1))) by lia. rewrite collect_app, app_nth2 by lia.
  rewrite LN, Nat.sub_diag, collect_app. cbn [collect]. rewrite Nat.add_0_r, Nat.add_0_l, E. reflexivity.
Qed.
Lemma third_edge : forall (e : nat -> bool) u m, 3 <= occurrences e u m ->
  exists x, u <= x < u + m /\ e x = true /\ 2 <= occurrences e u (x - u).
Proof.
  intros e u. induction m as [|m IH]; intros O1; [cbn in O1; lia|]. cbn [occurrences] in O1. destruct (e (u + m)) eqn:E.
  - exists (u + m). split; [lia|]. split; [exact E|]. replace (u + m - u) with m by lia. lia.
  - destruct IH as (x & A & B & C); [lia|]. exists x. split; [lia|]. split; assumption.
Qed.
Lemma occ_mono : forall p u t, u <= t -> occurrences p 0 u <= occurrences p 0 t.
Proof. intros p u t H. replace t with (u + (t - u)) by lia. rewrite occ_app. lia. Qed.

(** Set on offer at [t]: the registers at the instant of the matching push. *)
Lemma ini_offer : forall mem ra i, length mem = 4 -> forall t v, ini_out (ini_run mem ra i t) = Some v ->
  let wr := f_wr _ 2 mem ra (ini_fi mem ra i) in let rd := f_rd _ 2 mem ra (ini_fi mem ra i) in
  let u := instant wr (occurrences rd 0 t) t in
  u < t /\ wr u = true /\ occurrences wr 0 u = occurrences rd 0 t /\ v = regs_at mem ra i u.
Proof.
  intros mem ra i L t v E wr rd u.
  assert (HM : Z.of_nat (length mem) = (2 ^ 2)%Z) by (rewrite L; reflexivity).
  unfold ini_out in E. rewrite ini_fifo_run in E.
  set (fi := ini_fi mem ra i) in *.
  destruct (af_readable (af_run 2 mem ra fi t)) eqn:R; [|discriminate]. injection E as <-.
  destruct (f_inv_all _ 2 [] mem ra fi ltac:(lia) HM t) as (P0 & P1 & C0 & C1 & I).
  pose proof (dout_spec _ 2%Z [] mem ra fi ltac:(lia) _ _ _ _ _ I R) as D.
  pose proof R as R'. change (af_run 2 mem ra fi t) with (f_st _ 2 mem ra fi t) in R'.
  rewrite (readable_spec _ 2%Z [] mem ra fi ltac:(lia) _ _ _ _ _ I) in R'. apply Z.ltb_lt in R'. destruct I.
  assert (LT : occurrences rd 0 t < occurrences wr 0 t).
  { unfold f_P, f_C in *. fold wr in fi_pord. fold rd in R'. lia. }
  destruct (instant_spec wr _ t LT) as (U1 & U2 & U3). fold u in U1, U2, U3.
  split; [exact U1|]. split; [exact U2|]. split; [exact U3|].
  etransitivity; [exact D|]. unfold f_C. fold rd. rewrite Nat2Z.id, <- U3.
  unfold f_written. fold wr. rewrite (collect_instant _ wr (fun x => ai_d (fi x)) [] t u U1 U2). reflexivity.
Qed.

(** Every parameter set taken is the contents of all the registers in one sys
    clock in which the output was enabled, and successive sets come from
    successive clocks. *)
Theorem C78_snapshots :
  forall mem ra (i : nat -> ini_in), length mem = 4 ->
  exists tau : nat -> nat,
  (forall t v, pops mem ra i t = true -> ini_out (ini_run mem ra i t) = Some v ->
     tau t < t /\ ini_sys (i (tau t)) = true /\ enabled_at mem ra i (tau t) = true /\ v = regs_at mem ra i (tau t)) /\
  (forall t1 t2, t1 < t2 -> pops mem ra i t1 = true -> pops mem ra i t2 = true -> tau t1 < tau t2).
Proof.
  intros mem ra i L. set (wr := f_wr _ 2 mem ra (ini_fi mem ra i)). set (rd := f_rd _ 2 mem ra (ini_fi mem ra i)).
  exists (fun t => instant wr (occurrences rd 0 t) t). split.
  - intros t v P E. destruct (ini_offer mem ra i L t v E) as (A & B & C & D). fold wr in A, B, C, D. fold rd in A, B, C, D.
    split; [exact A|]. unfold wr at 1 in B. unfold f_wr at 1 in B. cbn [ini_fi ai_w ai_we] in B. apply andb_prop in B as [B1 B2].
    apply andb_prop in B2 as [_ B2]. split; [exact B1|]. split; [exact B2|exact D].
  - intros t1 t2 LT H1 H2.
    assert (G : forall t, pops mem ra i t = true -> exists v, ini_out (ini_run mem ra i t) = Some v).
    { intros t Ht. unfold pops in Ht. destruct (ini_out (ini_run mem ra i t)) as [v|]; [exists v; reflexivity|]. rewrite andb_false_r in Ht. discriminate. }
    destruct (G t1 H1) as (v1 & E1). destruct (G t2 H2) as (v2 & E2).
    destruct (ini_offer mem ra i L t1 v1 E1) as (A & B & C & _). destruct (ini_offer mem ra i L t2 v2 E2) as (A' & B' & C' & _).
    fold wr in A, B, C, A', B', C'. fold rd in A, B, C, A', B', C'.
    assert (LO : occurrences rd 0 t1 < occurrences rd 0 t2).
    { replace t2 with (t1 + (1 + (t2 - t1 - 1))) by lia. rewrite !occ_app. cbn [occurrences]. rewrite ?Nat.add_0_r, ?Nat.add_0_l.
      rewrite pops_fifo in H1. fold rd in H1. rewrite H1. lia. }
    destruct (Nat.lt_ge_cases (instant wr (occurrences rd 0 t1) t1) (instant wr (occurrences rd 0 t2) t2)) as [|GE]; [assumption|].
    pose proof (occ_mono wr _ _ GE). lia.
Qed.
Print Assumptions C78_snapshots.

(** The set on offer does not change until it is taken. *)
Theorem C78_held :
  forall mem ra (i : nat -> ini_in), length mem = 4 ->
  forall t v, ini_out (ini_run mem ra i t) = Some v -> ini_cd (i t) && ini_rdy (i t) = false ->
  ini_out (ini_run mem ra i (S t)) = Some v.
Proof.
  intros mem ra i L t v E H. assert (HM : Z.of_nat (length mem) = (2 ^ 2)%Z) by (rewrite L; reflexivity).
  unfold ini_out in *. rewrite ini_fifo_run in *. set (fi := ini_fi mem ra i) in *.
  destruct (af_readable (af_run 2 mem ra fi t)) eqn:R; [|discriminate]. injection E as <-.
  destruct (f_held _ 2 [] mem ra fi ltac:(lia) HM t) as [A B]; [exact R| |unfold f_st in A, B; rewrite A, B; reflexivity].
  unfold f_rd. cbn [fi ini_fi ai_r ai_re]. destruct (ini_cd (i t)); cbn [andb] in *; [|reflexivity]. rewrite H. apply andb_false_r.
Qed.
Print Assumptions C78_held.

Section Counts.
Variables (mem : list (list Z)) (ra : Z) (i : nat -> ini_in).
Hypothesis L : length mem = 4.
Let wr := f_wr _ 2 mem ra (ini_fi mem ra i).
Let rd := f_rd _ 2 mem ra (ini_fi mem ra i).
Lemma ini_counts : forall t, occurrences rd 0 t <= occurrences wr 0 t <= occurrences rd 0 t + 4.
Proof.
  intros t. assert (HM : Z.of_nat (length mem) = (2 ^ 2)%Z) by (rewrite L; reflexivity).
  destruct (f_inv_all _ 2 [] mem ra (ini_fi mem ra i) ltac:(lia) HM t) as (P0 & P1 & C0 & C1 & []).
  unfold f_P, f_C in *. fold wr in fi_pord, fi_pc. fold rd in fi_cp, fi_cord. change (2 ^ 2)%Z with 4%Z in *. lia.
Qed.
Lemma pops_occ : forall u t, u <= t -> occurrences rd 0 t = occurrences rd 0 u + occurrences (pops mem ra i) u (t - u).
Proof.
  intros u t U. replace t with (u + (t - u)) at 1 by lia. rewrite occ_app. f_equal. apply occurrences_ext.
  intros v _. symmetry. apply pops_fifo.
Qed.
End Counts.

(** Registers that keep their contents from instant [u] on are what is used
    once four more sets have been taken. *)
Theorem C78_effective_after_four :
  forall mem ra (i : nat -> ini_in), length mem = 4 ->
  forall u t R v, u <= t -> (forall x, u <= x <= t -> regs_at mem ra i x = R) ->
  4 <= occurrences (pops mem ra i) u (t - u) -> ini_out (ini_run mem ra i t) = Some v -> v = R.
Proof.
  intros mem ra i L u t R v U HR O E. destruct (ini_offer mem ra i L t v E) as (A & B & C & ->).
  set (wr := f_wr _ 2 mem ra (ini_fi mem ra i)) in *. set (rd := f_rd _ 2 mem ra (ini_fi mem ra i)) in *.
  apply HR. split; [|lia]. pose proof (ini_counts mem ra i L u) as Q. pose proof (pops_occ mem ra i L u t U) as T.
  cbv zeta in Q, T. fold wr in Q. fold rd in Q, T.
  destruct (Nat.lt_ge_cases (instant wr (occurrences rd 0 t) t) u) as [LT|GE]; [|exact GE]. exfalso.
  assert (S (occurrences rd 0 t) <= occurrences wr 0 u); [|lia].
  replace u with (S (instant wr (occurrences rd 0 t) t) + (u - S (instant wr (occurrences rd 0 t) t))) by lia.
  rewrite occ_app. cbn [occurrences]. rewrite Nat.add_0_l, B, C. lia.
Qed.
Print Assumptions C78_effective_after_four.

(** The registers hold what software wrote last: twelve bits of the eight timing
    values, 32 bits of the buffer address and length; all are zero and the output
    is disabled before the first write. *)
Definition writes_at (i : nat -> ini_in) (w : ini_wr -> bool) (t : nat) : bool := ini_sys (i t) && w (ini_sw (i t)).
Definition to_field (k : nat) (w : ini_wr) : bool := match w with IwField j _ => Nat.eqb j k | _ => false end.
Definition to_enable (w : ini_wr) : bool := match w with IwEnable _ => true | _ => false end.
Lemma ini_reg_step : forall mem ra i t, length (regs_at mem ra i t) = 10 /\
  (forall k, k < 10 -> writes_at i (to_field k) t = false -> nth k (regs_at mem ra i (S t)) 0%Z = nth k (regs_at mem ra i t) 0%Z) /\
  (forall k v, k < 10 -> ini_sys (i t) = true -> ini_sw (i t) = IwField k v ->
     nth k (regs_at mem ra i (S t)) 0%Z = (v mod 2 ^ (if (k <? 8)%nat then 12 else 32))%Z) /\
  (writes_at i to_enable t = false -> enabled_at mem ra i (S t) = enabled_at mem ra i t) /\
  (forall b, ini_sys (i t) = true -> ini_sw (i t) = IwEnable b -> enabled_at mem ra i (S t) = b).
Proof.
  intros mem ra i t. assert (LN : length (regs_at mem ra i t) = 10).
  { unfold regs_at. induction t as [|t IH]; [reflexivity|].
    change (ini_run mem ra i (S t)) with (ini_step (ini_run mem ra i t) (i t)). unfold ini_step. cbv zeta. cbn [ini_regs].
    destruct (ini_sys (i t)); [|exact IH]. destruct (ini_sw (i t)); cbn [ini_write snd]; try exact IH. rewrite set_nth_length. exact IH. }
  split; [exact LN|]. unfold regs_at, enabled_at, writes_at in *.
  change (ini_run mem ra i (S t)) with (ini_step (ini_run mem ra i t) (i t)). unfold ini_step. cbv zeta. cbn [ini_regs ini_en].
  destruct (ini_sys (i t)); [|repeat split; try reflexivity; discriminate]. cbn [andb].
  destruct (ini_sw (i t)) as [|b|j v]; cbn [ini_write fst snd to_field to_enable].
  - repeat split; try reflexivity; discriminate.
  - repeat split; try reflexivity; try discriminate. intros b' _ E. congruence.
  - repeat split; try reflexivity; try discriminate.
    + intros k K N. apply set_nth_neq. apply Nat.eqb_neq. exact N.
    + intros k v' K _ E. injection E as -> ->. rewrite set_nth_eq by lia. unfold trunc. f_equal. f_equal.
      do 10 (destruct k as [|k]; [reflexivity|]). lia.
Qed.
Theorem C78_register_write :
  forall mem ra (i : nat -> ini_in) t,
  (forall k, k < 10 ->
    ((forall x, x < t -> writes_at i (to_field k) x = false) -> nth k (regs_at mem ra i t) 0%Z = 0%Z) /\
    (forall u v, u < t -> ini_sys (i u) = true -> ini_sw (i u) = IwField k v -> (forall x, u < x < t -> writes_at i (to_field k) x = false) ->
      nth k (regs_at mem ra i t) 0%Z = (v mod 2 ^ (if (k <? 8)%nat then 12 else 32))%Z)) /\
  ((forall x, x < t -> writes_at i to_enable x = false) -> enabled_at mem ra i t = false) /\
  (forall u b, u < t -> ini_sys (i u) = true -> ini_sw (i u) = IwEnable b -> (forall x, u < x < t -> writes_at i to_enable x = false) ->
    enabled_at mem ra i t = b).
Proof.
  intros mem ra i t. split; [|split].
  - intros k K. split.
    + intros H. induction t as [|t IH].
      * unfold regs_at. cbn [ini_run at_ ini_init ini_regs]. do 10 (destruct k as [|k]; [reflexivity|]). lia.
      * destruct (ini_reg_step mem ra i t) as (_ & A & _). rewrite A; [|exact K|apply H; lia]. apply IH. intros x X. apply H. lia.
    + intros u v U SY W. revert U. induction t as [|t IH]; intros U H; [lia|]. destruct (ini_reg_step mem ra i t) as (_ & A & B & _).
      destruct (Nat.eq_dec u t) as [EQ|NE].
      * rewrite EQ in SY, W. apply B; assumption.
      * rewrite A; [|exact K|apply H; lia]. apply IH; [lia|]. intros x X. apply H. lia.
  - intros H. induction t as [|t IH]; [reflexivity|]. destruct (ini_reg_step mem ra i t) as (_ & _ & _ & A & _). rewrite A by (apply H; lia).
    apply IH. intros x X. apply H. lia.
  - intros u b U SY W. revert U. induction t as [|t IH]; intros U H; [lia|]. destruct (ini_reg_step mem ra i t) as (_ & _ & _ & A & B).
    destruct (Nat.eq_dec u t) as [EQ|NE].
    + rewrite EQ in SY, W. apply B; assumption.
    + rewrite A by (apply H; lia). apply IH; [lia|]. intros x X. apply H. lia.
Qed.
Print Assumptions C78_register_write.

(** While disabled, at most four further sets are taken. *)
Theorem C78_disabled :
  forall mem ra (i : nat -> ini_in), length mem = 4 ->
  forall u t, u <= t -> (forall x, u <= x < t -> enabled_at mem ra i x = false) ->
  occurrences (pops mem ra i) u (t - u) <= 4.
Proof.
  intros mem ra i L u t U H. pose proof (ini_counts mem ra i L u) as Q. pose proof (ini_counts mem ra i L t) as Q'.
  pose proof (pops_occ mem ra i L u t U) as T. cbv zeta in Q, Q', T.
  set (wr := f_wr _ 2 mem ra (ini_fi mem ra i)) in *. set (rd := f_rd _ 2 mem ra (ini_fi mem ra i)) in *.
  assert (W : occurrences wr 0 t = occurrences wr 0 u).
  { replace t with (u + (t - u)) by lia. rewrite occ_app. rewrite (occ_zero wr (0 + u)); [lia|]. intros x X. unfold wr, f_wr.
    cbn [ini_fi ai_w ai_we]. rewrite H by lia. rewrite !andb_false_r. reflexivity. }
  lia.
Qed.
Print Assumptions C78_disabled.

(** While enabled, a set is on offer after three sys edges and then two edges of
    the output's clock, unless one was taken meanwhile. *)
Theorem C78_supplied :
  forall mem ra (i : nat -> ini_in), length mem = 4 ->
  forall u v t, u <= v <= t -> (forall x, u <= x < v -> enabled_at mem ra i x = true) ->
  3 <= occurrences (fun x => ini_sys (i x)) u (v - u) -> 2 <= occurrences (fun x => ini_cd (i x)) v (t - v) ->
  occurrences (pops mem ra i) u (t - u) = 0 -> exists w, ini_out (ini_run mem ra i t) = Some w.
Proof.
  intros mem ra i L u v t U H O1 O2 O3. assert (HM : Z.of_nat (length mem) = (2 ^ 2)%Z) by (rewrite L; reflexivity).
  set (fi := ini_fi mem ra i). pose proof (pops_occ mem ra i L u t ltac:(lia)) as T. cbv zeta in T.
  pose proof (ini_counts mem ra i L u) as Q. cbv zeta in Q.
  set (wr := f_wr _ 2 mem ra fi) in *. set (rd := f_rd _ 2 mem ra fi) in *.
  change (f_rd (list Z) 2 mem ra (ini_fi mem ra i)) with rd in *. change (f_wr (list Z) 2 mem ra (ini_fi mem ra i)) with wr in *.
  assert (RD : af_readable (f_st _ 2 mem ra fi t) = true).
  { apply (f_available _ 2 [] mem ra fi ltac:(lia) HM v t); [lia|exact O2|]. unfold f_C, f_P. fold rd. fold wr.
    apply Nat2Z.inj_lt. rewrite T, O3, Nat.add_0_r.
    destruct (Nat.lt_ge_cases (occurrences rd 0 u) (occurrences wr 0 v)) as [|GE]; [assumption|exfalso].
    destruct (third_edge _ _ _ O1) as (x & X & SX & OX). cbv beta in SX.
    assert (XV : occurrences wr 0 (S x) <= occurrences wr 0 v) by (apply occ_mono; lia).
    assert (XU : occurrences wr 0 u <= occurrences wr 0 x) by (apply occ_mono; lia).
    assert (W : af_writable 2 (f_st _ 2 mem ra fi x) = true).
    { apply (f_room _ 2 [] mem ra fi ltac:(lia) HM u x); [lia|exact OX|]. unfold f_C, f_P. fold rd. fold wr.
      cbn [occurrences] in XV. change (2 ^ 2)%Z with 4%Z. lia. }
    assert (WX : wr x = true) by (unfold wr, f_wr; rewrite W; cbn [fi ini_fi ai_w ai_we]; rewrite SX, H by lia; reflexivity).
    cbn [occurrences Nat.add] in XV. rewrite WX in XV. lia. }
  exists (af_dout [] (af_run 2 mem ra fi t)). unfold ini_out. rewrite ini_fifo_run. fold fi. unfold f_st in RD. rewrite RD. reflexivity.
Qed.
Print Assumptions C78_supplied.

(** Examples for C78.  Both clocks have an edge at every instant.  Mode A has
    1 and mode B has 2 in the horizontal and vertical resolution registers. *)
Definition ex_ini (frame_end : nat -> bool) (t : nat) : ini_in :=
  {| ini_sys := true; ini_cd := true;
     ini_sw := if Nat.eqb t 0 then IwField 0 1 else if Nat.eqb t 1 then IwField 4 1 else if Nat.eqb t 2 then IwEnable true
               else if Nat.eqb t 10 then IwField 0 2 else if Nat.eqb t 11 then IwField 4 2 else IwNone;
     ini_rdy := frame_end t; ini_mp := 0; ini_mc := 0 |}%Z.
Definition ex_set (h v : Z) : list Z := [h; 0; 0; 0; v; 0; 0; 0; 0; 0]%Z.

(** The registers hold mode B from instant 12 on; four more frames end, and all
    four used mode A; the next uses mode B. *)
Theorem C78_stale_for_four_frames :
  exists mem ra i u, length mem = 4 /\ (forall x, u <= x -> regs_at mem ra i x = ex_set 2 2) /\
  (exists t1 t2 t3 t4, u < t1 < t2 /\ t2 < t3 < t4 /\
     forall t, In t [t1; t2; t3; t4] -> pops mem ra i t = true /\ ini_out (ini_run mem ra i t) = Some (ex_set 1 1)).
Proof.
  exists (repeat [] 4), 0%Z, (ex_ini (fun t => Nat.eqb (t mod 10) 0 && (20 <=? t))), 12.
  split; [reflexivity|]. split.
  - intros x X. replace x with (12 + (x - 12)) by lia. generalize (x - 12) as k. clear x X.
    induction k as [|k IH]; [vm_compute; reflexivity|]. replace (12 + S k) with (S (12 + k)) by lia.
    unfold regs_at in *. set (j := ex_ini _) in *.
    change (ini_run (repeat [] 4) 0 j (S (12 + k))) with (ini_step (ini_run (repeat [] 4) 0 j (12 + k)) (j (12 + k))).
    unfold ini_step. cbn [ini_regs]. rewrite IH.
    assert (E : ini_sw (j (12 + k)) = IwNone) by (unfold j, ex_ini; cbn [ini_sw]; reflexivity).
    rewrite E. cbn [ini_write snd]. destruct (ini_sys _); reflexivity.
  - exists 20, 30, 40, 50. split; [lia|]. split; [lia|]. intros t [<-|[<-|[<-|[<-|[]]]]]; vm_compute; split; reflexivity.
Qed.
Print Assumptions C78_stale_for_four_frames.

(** Software that changes from mode A to mode B while enabled can make a frame
    with the new horizontal and the old vertical resolution. *)
Theorem C78_mixed_when_changed_while_enabled :
  exists mem ra i t, length mem = 4 /\ pops mem ra i t = true /\
  ini_out (ini_run mem ra i t) = Some (ex_set 2 1) /\
  regs_at mem ra i 10 = ex_set 1 1 /\ regs_at mem ra i 12 = ex_set 2 2.
Proof.
  exists (repeat [] 4), 0%Z, (ex_ini (fun t => Nat.eqb t 8 || (Nat.eqb (t mod 10) 0 && (20 <=? t)))), 50.
  split; [reflexivity|]. vm_compute. repeat split; reflexivity.
Qed.
Print Assumptions C78_mixed_when_changed_while_enabled.

(** The hypotheses of the positive theorems are met in the same execution. *)
Example ex_ini_steady : let i := ex_ini (fun t => Nat.eqb (t mod 10) 0 && (20 <=? t)) in
  occurrences (pops (repeat [] 4) 0 i) 12 (55 - 12) = 4 /\ ini_out (ini_run (repeat [] 4) 0 i 55) = Some (ex_set 2 2) /\
  occurrences (fun x => ini_sys (i x)) 3 (8 - 3) = 5 /\ occurrences (pops (repeat [] 4) 0 i) 3 (12 - 3) = 0 /\
  (forall x, 3 <= x < 8 -> enabled_at (repeat [] 4) 0 i x = true).
Proof.
  cbv zeta. split; [vm_compute; reflexivity|]. split; [vm_compute; reflexivity|]. split; [vm_compute; reflexivity|].
  split; [vm_compute; reflexivity|]. intros x X. assert (H : x = 3 \/ x = 4 \/ x = 5 \/ x = 6 \/ x = 7) by lia.
  destruct H as [->|[->|[->|[->| ->]]]]; vm_compute; reflexivity.
Qed.
