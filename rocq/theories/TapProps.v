(** C101, C102: reading a bus across clock domains; the delay taps of the Series 7 receiver. *)
From Coq Require Import ZArith List Bool Arith Lia.
From Verif Require Import Hdl Trace CdcModel CdcProofs TapModel TapProofs.
Import ListNotations.
Open Scope nat_scope.

(** 126 edges of the source clock span at least four of the reading clock. *)
Definition quick_reader (src dst : nat -> bool) : Prop := forall u m, 126 <= occurrences src u m -> 4 <= occurrences dst u m.
(** From [p] to [n] there is time for four reader clocks, then three source clocks, then four reader clocks. *)
Definition round_trip (src dst : nat -> bool) (p n : nat) : Prop :=
  exists u v, p <= u /\ u <= v /\ v <= n /\ 4 <= occurrences dst p (u - p) /\ 3 <= occurrences src u (v - u) /\ 4 <= occurrences dst v (n - v).

Section C101.
Variable x : nat -> bs_in.
Definition bus_src n := bsi_a (x n).
Definition bus_dst n := bsi_b (x n).
Definition bus n := bsi_i (x n).
Definition bus_read n := bs_o (bs_run 128 x n).

(** Every value read is a whole value that the bus had at an edge of the source clock,
    later readings are from the same edge or later ones; before the first transfer the reading is 0. *)
Theorem C101_whole_words : quick_reader bus_src bus_dst ->
  exists f : nat -> option nat,
  (forall m n j, m <= n -> f m = Some j -> exists k, f n = Some k /\ j <= k) /\
  (forall n, match f n with Some j => j < n /\ bus_src j = true /\ bus_read n = bus j | None => bus_read n = 0%Z end).
Proof.
  intros Q. exists (fun n => g_o (gh x n)). split.
  - intros m n j L H. pose proof (g_o_mono x Q m n L) as M. rewrite H in M. destruct (g_o (gh x n)) as [k|]; cbn in M; [|tauto]. exists k. auto.
  - intros n. unfold bus_read. rewrite (bs_o_val x Q n). destruct (g_o (gh x n)) as [j|] eqn:G; [|reflexivity].
    destruct (g_src x Q n j G) as [L A]. split; [exact L|]. split; [exact A|reflexivity].
Qed.
(** A value that the bus has long enough is read. *)
Theorem C101_current : quick_reader bus_src bus_dst -> forall p n v,
  occurrences bus_src 0 p <> 0 -> round_trip bus_src bus_dst p n -> (forall t, p <= t < n -> bus_src t = true -> bus t = v) -> bus_read n = v.
Proof.
  intros Q p n v ST (u & w & A & B & C & D & E & F) H. destruct (fresh_read x Q p u w n A B C ST D E F) as (j & G & P).
  destruct (g_src x Q n j G) as [L S]. unfold bus_read. rewrite (bs_o_val x Q n), G. apply H; [lia|exact S].
Qed.
End C101.

(** With a slower reading clock the timer sends a second request while the first is under
    way, and software can read a mixture of two values: here 1 although the bus is always 3. *)
Definition ex_slow (n : nat) : bs_in :=
  {| bsi_a := true; bsi_b := existsb (Nat.eqb n) [10; 20; 121; 130; 133; 140; 141]; bsi_i := 3%Z; bsi_rt := false; bsi_rd := 1%Z |}.
Theorem C101_slow_reader : exists x n, (forall t, bus x t = 3%Z) /\ bus_read x n = 1%Z.
Proof. exists ex_slow, 142. split; [reflexivity|]. vm_compute. reflexivity. Qed.

(** * C102 *)
Section C102.
Variable x : nat -> tp_in.
Definition tap_sys n := tpi_sys (x n).
Definition tap_pix n := tpi_pix (x n).
(** A command: software writes the register with one of the three bits for this line set. *)
Definition command (n : nat) : option (bool * bool * bool) :=
  if tpi_sys (x n) && (tpi_rst (x n) || tpi_inc (x n) || tpi_dec (x n)) then Some (tpi_rst (x n), tpi_inc (x n), tpi_dec (x n)) else None.
(** Two commands are never given within one clock of the delay line. *)
Definition patient : Prop := forall p q, p < q -> command p <> None -> command q <> None -> exists t, p < t <= q /\ tap_pix t = true.
End C102.
(** What the commands mean. *)
Definition tap_after (c : Z) (k : bool * bool * bool) : Z :=
  let '(r, i, d) := k in if r then 0%Z else if i then ((c + 1) mod 32)%Z else if d then ((c - 1) mod 32)%Z else c.

Lemma ap_after : forall l c, fold_left ap l c = fold_left tap_after l c.
Proof. induction l as [|[[r i] d] l IH]; intros c; [reflexivity|]. cbn [fold_left]. rewrite IH. f_equal. destruct r, i, d; reflexivity. Qed.

(** Every command moves the delay line once, in order; and once the last command is long
    enough ago, software reads the resulting tap. *)
Theorem C102_tap_read : forall x p q n, patient x -> quick_reader (tap_pix x) (tap_sys x) ->
  p <= q -> 3 <= occurrences (tap_pix x) p (q - p) -> round_trip (tap_pix x) (tap_sys x) q n -> (forall t, p <= t < n -> command x t = None) ->
  tp_cnt (tp_run x n) = fold_left tap_after (collect (command x) 0 p) 0%Z /\
  tp_read (tp_run x n) = fold_left tap_after (collect (command x) 0 p) 0%Z.
Proof.
  intros x p q n PA QR PQ H RT NC.
  set (prst := fun n => tpi_sys (x n) && tpi_rst (x n)). set (pinc := fun n => tpi_sys (x n) && tpi_inc (x n)). set (pdec := fun n => tpi_sys (x n) && tpi_dec (x n)).
  assert (AN : forall t, (prst t || pinc t || pdec t) = true <-> command x t <> None).
  { intros t. unfold command, prst, pinc, pdec. destruct (tpi_sys (x t)); [|cbn; split; [discriminate|tauto]]. cbn [andb].
    destruct (tpi_rst (x t) || tpi_inc (x t) || tpi_dec (x t)); split; try discriminate; try reflexivity; tauto. }
  assert (AF : forall t, command x t = None -> (prst t || pinc t || pdec t) = false).
  { intros t C. destruct (prst t || pinc t || pdec t) eqn:E; [|reflexivity]. apply AN in E. tauto. }
  assert (AP : forall p q, p < q -> (prst p || pinc p || pdec p) = true -> (prst q || pinc q || pdec q) = true -> exists t, p < t <= q /\ tpi_pix (x t) = true).
  { intros p' q' L A B. apply (PA p' q' L); apply AN; assumption. }
  assert (CE : forall t, (if (prst t || pinc t || pdec t) then Some (prst t, pinc t, pdec t) else None) = command x t).
  { intros t. unfold command, prst, pinc, pdec. destruct (tpi_sys (x t)); reflexivity. }
  assert (T : forall m, q <= m -> m <= n -> tp_cnt (tp_run x m) = fold_left tap_after (collect (command x) 0 p) 0%Z).
  { intros m QM MN. rewrite (tap_settled x AP p m).
    - rewrite ap_after. f_equal. apply collect_ext. intros t _. apply CE.
    - lia.
    - change (fun n => tpi_pix (x n)) with (tap_pix x). replace (m - p) with ((q - p) + (m - q)) by lia. rewrite occ_app. lia.
    - intros t T. apply AF. apply NC. lia. }
  destruct RT as (u & v & U1 & U2 & U3 & U4). split; [apply T; lia|].
  unfold tp_read. rewrite tp_bs_run. set (xb := fun t => {| bsi_a := tpi_pix (x t); bsi_b := tpi_sys (x t); bsi_i := tp_cnt (tp_run x t); bsi_rt := tpi_rt (x t); bsi_rd := tpi_rd (x t) |}).
  change (bus_read xb n = fold_left tap_after (collect (command x) 0 p) 0%Z). apply (C101_current xb QR q n).
  - change (occurrences (tap_pix x) 0 q <> 0). replace q with (p + (q - p)) by lia. rewrite occ_app. cbn [Nat.add]. lia.
  - exists u, v. split; [exact U1|]. split; [exact U2|]. split; [exact U3|]. exact U4.
  - intros t Ht _. unfold bus; cbn [bsi_i]. apply T; lia.
Qed.
(** In particular after [k] steps up and [l] steps down, in any order, from reset. *)
Theorem C102_steps : forall l, (forall k, In k l -> k = (false, true, false) \/ k = (false, false, true)) ->
  fold_left tap_after l 0%Z = ((Z.of_nat (length (filter (fun k => snd (fst k)) l)) - Z.of_nat (length (filter snd l))) mod 32)%Z.
Proof.
  intros l H. rewrite <- (rev_involutive l) in *. induction (rev l) as [|k r IH]; [reflexivity|]. cbn [rev] in *.
  rewrite fold_left_app, !filter_app, !app_length. cbn [fold_left]. rewrite IH by (intros k' K; apply H, in_or_app; left; exact K).
  destruct (H k) as [-> | ->]; [apply in_or_app; right; left; reflexivity| |]; cbn [tap_after filter fst snd length]; rewrite !Nat2Z.inj_add; cbn [Z.of_nat].
  - rewrite Zplus_mod_idemp_l. f_equal. lia.
  - rewrite Zminus_mod_idemp_l. f_equal. lia.
Qed.

(** Both clocks at every instant; up, up, reset, down, up and down at once, up. *)
Definition ex_tap_in (n : nat) : tp_in :=
  let w := nth n [0; 0; 2; 0; 2; 1; 0; 4; 0; 6; 2]%Z 0%Z in
  {| tpi_sys := true; tpi_pix := true; tpi_rst := Z.testbit w 0; tpi_inc := Z.testbit w 1; tpi_dec := Z.testbit w 2; tpi_rt := Nat.even n; tpi_rd := Z.of_nat n |}.
Lemma ex_all : forall f s m, (forall t, f t = true) -> occurrences f s m = m.
Proof. intros f s m H. induction m as [|m IH]; [reflexivity|]. cbn [occurrences]. rewrite IH, H. lia. Qed.
Example ex_tap_hyp : patient ex_tap_in /\ quick_reader (tap_pix ex_tap_in) (tap_sys ex_tap_in) /\ (forall t, 12 <= t < 40 -> command ex_tap_in t = None) /\
  3 <= occurrences (tap_pix ex_tap_in) 12 (15 - 12) /\ round_trip (tap_pix ex_tap_in) (tap_sys ex_tap_in) 15 40.
Proof.
  split; [intros p q L _ _; exists q; split; [lia|reflexivity]|]. split; [intros u m H; rewrite !ex_all in * by reflexivity; lia|].
  split; [intros t T; do 40 (destruct t as [|t]; [try lia; reflexivity|]); lia|].
  split; [rewrite ex_all by reflexivity; lia|]. exists 19, 22. rewrite !ex_all by reflexivity. lia.
Qed.
Example ex_tap : tp_read (tp_run ex_tap_in 40) = 1%Z /\ fold_left tap_after (collect (command ex_tap_in) 0 12) 0%Z = 1%Z /\ tp_read (tp_run ex_tap_in 18) = 31%Z /\
  tp_cnt (tp_run ex_tap_in 11) = 31%Z.
Proof. vm_compute. repeat split. Qed.
(** Commands closer together cancel: two steps up within one clock of the delay line have no effect. *)
Definition ex_tap_close (n : nat) : tp_in :=
  {| tpi_sys := true; tpi_pix := Nat.even n; tpi_rst := false; tpi_inc := Nat.eqb n 2 || Nat.eqb n 3; tpi_dec := false; tpi_rt := false; tpi_rd := 0%Z |}.
Example ex_tap_cancel : tp_cnt (tp_run ex_tap_close 30) = 0%Z /\ collect (command ex_tap_close) 0 30 = [(false, true, false); (false, true, false)].
Proof. vm_compute. repeat split. Qed.

Print Assumptions C101_whole_words.
Print Assumptions C101_current.
Print Assumptions C101_slow_reader.
Print Assumptions C102_tap_read.
Print Assumptions C102_steps.
