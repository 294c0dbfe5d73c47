(** Lemmas for the clock domain crossings. *)
From Coq Require Import List Bool Arith Lia.
From Verif Require Import Hdl Trace CdcModel.
Import ListNotations.
Open Scope nat_scope.

Lemma occ_app : forall p a n m, occurrences p a (n + m) = occurrences p a n + occurrences p (a + n) m.
Proof.
  induction m as [|m IH]; [rewrite Nat.add_0_r; cbn; lia|].
  rewrite Nat.add_succ_r. cbn [occurrences]. rewrite IH, Nat.add_assoc. lia.
Qed.
Lemma occ_pos : forall p a n, occurrences p a n <> 0 -> exists t, a <= t < a + n /\ p t = true.
Proof.
  induction n as [|n IH]; intros H; [cbn in H; lia|]. cbn [occurrences] in H.
  destruct (p (a + n)) eqn:E; [exists (a + n); split; [lia|exact E]|].
  destruct IH as (t & Ht & Hp); [lia|]. exists t; split; [lia|exact Hp].
Qed.
Lemma occ_zero : forall p a n, (forall t, a <= t < a + n -> p t = false) -> occurrences p a n = 0.
Proof.
  induction n as [|n IH]; intros H; [reflexivity|]. cbn [occurrences]. rewrite H by lia. rewrite IH; [reflexivity|].
  intros; apply H; lia.
Qed.
Lemma occ_one : forall p a n t, a <= t < a + n -> p t = true ->
  (forall u, a <= u < a + n -> p u = true -> u = t) -> occurrences p a n = 1.
Proof.
  intros p a n t Ht Hp Hu.
  replace n with ((t - a) + (1 + (a + n - S t))) by lia.
  rewrite !occ_app. rewrite (occ_zero p a (t - a)).
  2:{ intros u U. destruct (p u) eqn:E; [|reflexivity]. apply Hu in E; lia. }
  replace (a + (t - a)) with t by lia. cbn [occurrences]. rewrite Nat.add_0_r, Hp.
  rewrite (occ_zero p (t + 1)); [reflexivity|].
  intros u U. destruct (p u) eqn:E; [|reflexivity]. apply Hu in E; lia.
Qed.

(** The last instant before [n] with an edge. *)
Fixpoint prev (e : nat -> bool) (n : nat) : option nat :=
  match n with O => None | S m => if e m then Some m else prev e m end.
Definition prev2 e n := match prev e n with Some a => prev e a | None => None end.
Definition prev3 e n := match prev2 e n with Some a => prev e a | None => None end.

Lemma prev_some : forall e n a, prev e n = Some a -> a < n /\ e a = true /\ (forall t, a < t < n -> e t = false).
Proof.
  induction n as [|n IH]; intros a H; [discriminate|]. cbn [prev] in H.
  destruct (e n) eqn:E.
  - injection H as <-. split; [lia|]. split; [exact E|]. intros; lia.
  - apply IH in H as (A & B & C). split; [lia|]. split; [exact B|]. intros t Ht.
    destruct (Nat.eq_dec t n) as [->|N]; [exact E|apply C; lia].
Qed.
Lemma prev_none : forall e n, prev e n = None -> forall t, t < n -> e t = false.
Proof.
  induction n as [|n IH]; intros H t Ht; [lia|]. cbn [prev] in H.
  destruct (e n) eqn:E; [discriminate|].
  destruct (Nat.eq_dec t n) as [->|N]; [exact E|apply IH; [exact H|lia]].
Qed.
Lemma prev_is : forall e n a, a < n -> e a = true -> (forall t, a < t < n -> e t = false) -> prev e n = Some a.
Proof.
  induction n as [|n IH]; intros a A B C; [lia|]. cbn [prev].
  destruct (Nat.eq_dec a n) as [->|N]; [rewrite B; reflexivity|].
  rewrite C by lia. apply IH; [lia|exact B|]. intros; apply C; lia.
Qed.

Section Pulse.
Variable x : nat -> bool * bool * bool.
Definition eA n := fst (fst (x n)).
Definition eB n := snd (fst (x n)).
Definition pulse n := eA n && snd (x n).

Lemma ps_run_S : forall n, ps_run x (S n) = ps_step (eA n) (eB n) (snd (x n)) (ps_run x n).
Proof.
  intros n. unfold ps_run at 1. cbn [at_]. fold (ps_run x n). unfold eA, eB.
  destruct (x n) as [[a b] c]. reflexivity.
Qed.

Lemma ps_t_parity : forall n, ps_t (ps_run x n) = Nat.odd (occurrences pulse 0 n).
Proof.
  induction n as [|n IH]; [reflexivity|]. rewrite ps_run_S. cbn [occurrences Nat.add].
  unfold ps_step; cbn [ps_t]. rewrite IH. fold (pulse n). destruct (pulse n).
  - rewrite Nat.add_1_r, Nat.odd_succ, <- Nat.negb_odd. reflexivity.
  - rewrite Nat.add_0_r. reflexivity.
Qed.

Definition tog (a : option nat) : bool := match a with Some t => ps_t (ps_run x t) | None => false end.

Lemma ps_regs : forall n, ps_m0 (ps_run x n) = tog (prev eB n) /\ ps_m1 (ps_run x n) = tog (prev2 eB n) /\
  ps_r (ps_run x n) = tog (prev3 eB n).
Proof.
  induction n as [|n (I0 & I1 & I2)]; [repeat split; reflexivity|].
  rewrite ps_run_S. unfold ps_step; cbn [ps_m0 ps_m1 ps_r]. unfold prev2, prev3, prev2 in *. cbn [prev].
  destruct (eB n); auto.
Qed.

Lemma odd_diff : forall a b, xorb (Nat.odd (a + b)) (Nat.odd a) = Nat.odd b.
Proof. intros. rewrite Nat.odd_add. destruct (Nat.odd a), (Nat.odd b); reflexivity. Qed.

(** Output in terms of the number of pulses in one destination period. *)
Lemma ps_o_count : forall n, ps_o (ps_run x n) =
  match prev2 eB n with
  | None => false
  | Some b => match prev eB b with
              | Some a => Nat.odd (occurrences pulse a (b - a))
              | None => Nat.odd (occurrences pulse 0 b)
              end
  end.
Proof.
  intros n. unfold ps_o. destruct (ps_regs n) as (_ & -> & ->). unfold prev3.
  destruct (prev2 eB n) as [b|] eqn:B; [|reflexivity]. cbn [tog].
  destruct (prev eB b) as [a|] eqn:A; cbn [tog]; rewrite ?ps_t_parity.
  - apply prev_some in A as (L & _). replace b with (a + (b - a)) at 1 by lia. rewrite occ_app. apply odd_diff.
  - apply xorb_false_r.
Qed.

Lemma prev2_count : forall n b, prev2 eB n = Some b ->
  b < n /\ eB b = true /\ occurrences eB (S b) (n - S b) = 1.
Proof.
  unfold prev2; intros n b H. destruct (prev eB n) as [c|] eqn:C; [|discriminate].
  apply prev_some in C as (L & Ec & Nc). apply prev_some in H as (L' & Eb & Nb).
  split; [lia|]. split; [exact Eb|]. apply (occ_one _ _ _ c); [lia|exact Ec|].
  intros u U E. destruct (Nat.lt_trichotomy u c) as [Q|[Q|Q]]; [|exact Q|].
  - rewrite Nb in E by lia; discriminate.
  - rewrite Nc in E by lia; discriminate.
Qed.

(** Two edges between [p] and [n]: the second last edge is the first one after [p]. *)
Lemma two_edges : forall p n, p < n -> occurrences eB (S p) (n - S p) = 2 ->
  exists b, prev2 eB n = Some b /\ p < b /\ (forall t, p < t < b -> eB t = false).
Proof.
  intros p n L H. unfold prev2. destruct (prev eB n) as [c|] eqn:C.
  2:{ pose proof (prev_none _ _ C) as N. rewrite occ_zero in H; [discriminate|]. intros; apply N; lia. }
  apply prev_some in C as (Lc & Ec & Nc).
  assert (Pc : p < c).
  { destruct (Nat.le_gt_cases c p) as [Q|Q]; [|exact Q]. rewrite occ_zero in H; [discriminate|]. intros; apply Nc; lia. }
  assert (H1 : occurrences eB (S p) (c - S p) = 1).
  { replace (n - S p) with ((c - S p) + (1 + (n - S c))) in H by lia. rewrite !occ_app in H.
    replace (S p + (c - S p)) with c in H by lia. cbn [occurrences] in H. rewrite Nat.add_0_r, Ec in H.
    rewrite (occ_zero eB (c + 1)) in H by (intros; apply Nc; lia). lia. }
  destruct (prev eB c) as [b|] eqn:B.
  2:{ pose proof (prev_none _ _ B) as N. rewrite occ_zero in H1; [discriminate|]. intros; apply N; lia. }
  apply prev_some in B as (Lb & Eb & Nb).
  assert (Pb : p < b).
  { destruct (Nat.le_gt_cases b p) as [Q|Q]; [|exact Q]. rewrite occ_zero in H1; [discriminate|]. intros; apply Nb; lia. }
  exists b. split; [reflexivity|]. split; [exact Pb|]. intros t Ht.
  destruct (eB t) eqn:E; [|reflexivity]. exfalso.
  replace (c - S p) with ((t - S p) + (1 + ((b - S t) + (1 + (c - S b))))) in H1 by lia. rewrite !occ_app in H1.
  replace (S p + (t - S p)) with t in H1 by lia. replace (t + 1 + (b - S t)) with b in H1 by lia.
  cbn [occurrences] in H1. rewrite !Nat.add_0_r, E, Eb in H1. lia.
Qed.
End Pulse.

(** * Delay control: protocol phases *)
Inductive phase := Idle | Go0 | Go1 | Go2 | Work | Fin | Back0 | Back1 | Back2.
(** Abstract state: phase, bits of the last command, toggles. *)
Record abs := { a_ph : phase; a_c : bool; a_i : bool; a_d : bool; a_tc : bool; a_ti : bool; a_td : bool; a_tn : bool }.
Definition abs0 : abs := {| a_ph := Idle; a_c := false; a_i := false; a_d := false;
                            a_tc := false; a_ti := false; a_td := false; a_tn := false |}.
(** A synchroniser whose toggle has moved on by [pos] destination edges. *)
Definition moving (go : bool) (pos : nat) (t : bool) : ps_st :=
  {| ps_t := t;
     ps_m0 := if go && (pos <=? 0) then negb t else t;
     ps_m1 := if go && (pos <=? 1) then negb t else t;
     ps_r := if go && (pos <=? 2) then negb t else t |}.
Definition go_pos (p : phase) : nat := match p with Go0 => 0 | Go1 => 1 | Go2 => 2 | _ => 3 end.
Definition back_pos (p : phase) : nat := match p with Back0 => 0 | Back1 => 1 | Back2 => 2 | _ => 3 end.
Definition emb (q : abs) : dc_st :=
  {| dc_cal := moving (a_c q) (go_pos (a_ph q)) (a_tc q);
     dc_inc := moving (a_i q) (go_pos (a_ph q)) (a_ti q);
     dc_dec := moving (a_d q) (go_pos (a_ph q)) (a_td q);
     dc_pend := match a_ph q with Work => true | _ => false end;
     dc_done_i := match a_ph q with Fin => true | _ => false end;
     dc_done := moving true (back_pos (a_ph q)) (a_tn q);
     dc_spend := match a_ph q with Idle => false | _ => true end |}.
Definition dci_write (i : dc_in) : bool := dci_sys i && (dci_cal i || dci_inc i || dci_dec i).
Definition set_ph (q : abs) (p : phase) : abs :=
  {| a_ph := p; a_c := a_c q; a_i := a_i q; a_d := a_d q; a_tc := a_tc q; a_ti := a_ti q; a_td := a_td q; a_tn := a_tn q |}.
Definition abs_step (q : abs) (i : dc_in) : abs :=
  match a_ph q with
  | Idle => if dci_write i
            then {| a_ph := Go0; a_c := dci_cal i; a_i := dci_inc i; a_d := dci_dec i;
                    a_tc := xorb (a_tc q) (dci_cal i); a_ti := xorb (a_ti q) (dci_inc i);
                    a_td := xorb (a_td q) (dci_dec i); a_tn := a_tn q |}
            else q
  | Go0 => if dci_pix i then set_ph q Go1 else q
  | Go1 => if dci_pix i then set_ph q Go2 else q
  | Go2 => if dci_pix i then set_ph q Work else q
  | Work => if dci_pix i && negb (dci_busy i) then set_ph q Fin else q
  | Fin => if dci_pix i
           then {| a_ph := Back0; a_c := a_c q; a_i := a_i q; a_d := a_d q; a_tc := a_tc q; a_ti := a_ti q;
                   a_td := a_td q; a_tn := negb (a_tn q) |}
           else q
  | Back0 => if dci_sys i then set_ph q Back1 else q
  | Back1 => if dci_sys i then set_ph q Back2 else q
  | Back2 => if dci_sys i then set_ph q Idle else q
  end.
(** The command bits are not all zero from the command on. *)
Definition abs_ok (q : abs) : bool := match a_ph q with Idle => true | _ => a_c q || a_i q || a_d q end.

(** The simulation is decided over all abstract states and inputs. *)
Definition both (f : bool -> bool) : bool := f false && f true.
Lemma both_all : forall (f : bool -> bool), both f = true -> forall b, f b = true.
Proof. intros f H b. apply andb_prop in H as [A B]. destruct b; assumption. Qed.
Definition phases : list phase := [Idle; Go0; Go1; Go2; Work; Fin; Back0; Back1; Back2].
Definition ps_flat (s : ps_st) : list bool := [ps_t s; ps_m0 s; ps_m1 s; ps_r s].
Definition dc_flat (s : dc_st) : list bool :=
  ps_flat (dc_cal s) ++ ps_flat (dc_inc s) ++ ps_flat (dc_dec s) ++ ps_flat (dc_done s) ++ [dc_pend s; dc_done_i s; dc_spend s].
Fixpoint bl_eqb (x y : list bool) : bool :=
  match x, y with
  | [], [] => true
  | a :: x, b :: y => Bool.eqb a b && bl_eqb x y
  | _, _ => false
  end.
Lemma bl_eqb_eq : forall x y, bl_eqb x y = true -> x = y.
Proof.
  induction x as [|a x IH]; intros [|b y] H; cbn in H; try discriminate; [reflexivity|].
  apply andb_prop in H as [A B]. apply eqb_prop in A. rewrite A, (IH y B). reflexivity.
Qed.
Lemma dc_flat_inj : forall s t, dc_flat s = dc_flat t -> s = t.
Proof.
  intros [[? ? ? ?] [? ? ? ?] [? ? ? ?] ? ? [? ? ? ?] ?] [[? ? ? ?] [? ? ? ?] [? ? ? ?] ? ? [? ? ? ?] ?] H.
  cbn in H. injection H as -> -> -> -> -> -> -> -> -> -> -> -> -> -> -> -> -> -> ->. reflexivity.
Qed.
Definition sim1 (q : abs) (i : dc_in) : bool :=
  if abs_ok q && (negb (dci_write i) || match a_ph q with Idle => true | _ => false end)
  then bl_eqb (dc_flat (dc_step (emb q) i)) (dc_flat (emb (abs_step q i))) && abs_ok (abs_step q i)
  else true.
Lemma sim_check :

  forallb (fun p => both (fun c => both (fun i0 => both (fun d => both (fun tc => both (fun ti => both (fun td => both (fun tn =>
    both (fun a => both (fun b => both (fun x => both (fun y => both (fun z => both (fun w =>
      sim1 {| a_ph := p; a_c := c; a_i := i0; a_d := d; a_tc := tc; a_ti := ti; a_td := td; a_tn := tn |}
           {| dci_sys := a; dci_pix := b; dci_cal := x; dci_inc := y; dci_dec := z; dci_busy := w |})))))))))))))) phases = true.
Proof. vm_compute. reflexivity. Qed.
Lemma sim1_all : forall q i, sim1 q i = true.
Proof.
  intros [p c i0 d tc ti td tn] [a b x y z w].
  pose proof (proj1 (forallb_forall _ _) sim_check p ltac:(destruct p; cbn; tauto)) as K. cbv beta in K.
  apply both_all with (b := c) in K. apply both_all with (b := i0) in K. apply both_all with (b := d) in K.
  apply both_all with (b := tc) in K. apply both_all with (b := ti) in K. apply both_all with (b := td) in K.
  apply both_all with (b := tn) in K. apply both_all with (b := a) in K. apply both_all with (b := b) in K.
  apply both_all with (b := x) in K. apply both_all with (b := y) in K. apply both_all with (b := z) in K.
  apply both_all with (b := w) in K. exact K.
Qed.
Lemma abs_sim : forall q i, abs_ok q = true -> (dci_write i = true -> a_ph q = Idle) ->
  dc_step (emb q) i = emb (abs_step q i) /\ abs_ok (abs_step q i) = true.
Proof.
  intros q i OK W. pose proof (sim1_all q i) as H. unfold sim1 in H. rewrite OK in H.
  assert (T : negb (dci_write i) || match a_ph q with Idle => true | _ => false end = true).
  { destruct (dci_write i); [|reflexivity]. rewrite (W eq_refl). reflexivity. }
  rewrite T in H. cbn [andb] in H. apply andb_prop in H as [H1 H2]. split; [|exact H2].
  apply dc_flat_inj, bl_eqb_eq, H1.
Qed.

(** * Overflow flag: protocol phases *)
Inductive oph := OIdle | R0 | R1 | R2 | A0 | A1 | A2.
Record oabs := { o_ph : oph; o_pix : bool; o_m0 : bool; o_m1 : bool; o_tr : bool; o_ta : bool }.
Definition oabs0 : oabs := {| o_ph := OIdle; o_pix := false; o_m0 := false; o_m1 := false; o_tr := false; o_ta := false |}.
Definition rpos (p : oph) : nat := match p with R0 => 0 | R1 => 1 | R2 => 2 | _ => 3 end.
Definition apos (p : oph) : nat := match p with A0 => 0 | A1 => 1 | A2 => 2 | _ => 3 end.
Definition oemb (q : oabs) : ov_st :=
  {| ov_pix := o_pix q; ov_m0 := o_m0 q; ov_m1 := o_m1 q;
     ov_rst := moving true (rpos (o_ph q)) (o_tr q); ov_ack := moving true (apos (o_ph q)) (o_ta q);
     ov_mask := match o_ph q with OIdle => false | _ => true end |}.
Definition oph_step (p : oph) (i : ov_in) : oph :=
  match p with
  | OIdle => if ovi_sys i && ovi_re i then R0 else OIdle
  | R0 => if ovi_pix i then R1 else R0
  | R1 => if ovi_pix i then R2 else R1
  | R2 => if ovi_pix i then A0 else R2
  | A0 => if ovi_sys i then A1 else A0
  | A1 => if ovi_sys i then A2 else A1
  | A2 => if ovi_sys i then OIdle else A2
  end.
Definition oabs_step (q : oabs) (i : ov_in) : oabs :=
  {| o_ph := oph_step (o_ph q) i;
     o_pix := if ovi_pix i then (if ovi_drop i then true else match o_ph q with R2 => false | _ => o_pix q end) else o_pix q;
     o_m0 := if ovi_sys i then o_pix q else o_m0 q;
     o_m1 := if ovi_sys i then o_m0 q else o_m1 q;
     o_tr := match o_ph q with OIdle => xorb (o_tr q) (ovi_sys i && ovi_re i) | _ => o_tr q end;
     o_ta := match o_ph q with R2 => xorb (o_ta q) (ovi_pix i) | _ => o_ta q end |}.
Definition ov_flat (s : ov_st) : list bool :=
  [ov_pix s; ov_m0 s; ov_m1 s] ++ ps_flat (ov_rst s) ++ ps_flat (ov_ack s) ++ [ov_mask s].
Lemma ov_flat_inj : forall s t, ov_flat s = ov_flat t -> s = t.
Proof.
  intros [? ? ? [? ? ? ?] [? ? ? ?] ?] [? ? ? [? ? ? ?] [? ? ? ?] ?] H. cbn in H.
  injection H as -> -> -> -> -> -> -> -> -> -> -> ->. reflexivity.
Qed.
Definition ophases : list oph := [OIdle; R0; R1; R2; A0; A1; A2].
Definition osim1 (q : oabs) (i : ov_in) : bool :=
  if negb (ovi_sys i && ovi_re i) || match o_ph q with OIdle => true | _ => false end
  then bl_eqb (ov_flat (ov_step (oemb q) i)) (ov_flat (oemb (oabs_step q i))) else true.
Lemma osim_check :
  forallb (fun p => both (fun x => both (fun m0 => both (fun m1 => both (fun tr => both (fun ta =>
    both (fun a => both (fun b => both (fun r => both (fun d =>
      osim1 {| o_ph := p; o_pix := x; o_m0 := m0; o_m1 := m1; o_tr := tr; o_ta := ta |}
            {| ovi_sys := a; ovi_pix := b; ovi_re := r; ovi_drop := d |})))))))))) ophases = true.
Proof. vm_compute. reflexivity. Qed.
Lemma osim1_all : forall q i, osim1 q i = true.
Proof.
  intros [p x m0 m1 tr ta] [a b r d].
  pose proof (proj1 (forallb_forall _ _) osim_check p ltac:(destruct p; cbn; tauto)) as K. cbv beta in K.
  apply both_all with (b := x) in K. apply both_all with (b := m0) in K. apply both_all with (b := m1) in K.
  apply both_all with (b := tr) in K. apply both_all with (b := ta) in K. apply both_all with (b := a) in K.
  apply both_all with (b := b) in K. apply both_all with (b := r) in K. apply both_all with (b := d) in K. exact K.
Qed.
Lemma oabs_sim : forall q i, (ovi_sys i && ovi_re i = true -> o_ph q = OIdle) ->
  ov_step (oemb q) i = oemb (oabs_step q i).
Proof.
  intros q i W. pose proof (osim1_all q i) as H. unfold osim1 in H.
  assert (T : negb (ovi_sys i && ovi_re i) || match o_ph q with OIdle => true | _ => false end = true).
  { destruct (ovi_sys i && ovi_re i); [|reflexivity]. rewrite (W eq_refl). reflexivity. }
  rewrite T in H. apply ov_flat_inj, bl_eqb_eq, H.
Qed.
