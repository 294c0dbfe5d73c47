(** Invariant of the EDID slave over all bus activity in which SCL stays low
    for at least two samples. *)
From Coq Require Import ZArith List Bool Lia Arith.
From Verif Require Import Hdl EdidModel EdidSpec EdidSettle EdidProofs.
Import ListNotations.
Open Scope nat_scope.

Section I.
Variable mem : Z -> Z.
Variable ab : Z.
Notation bstep := (bstep mem ab).
Notation mk := (mk mem).
Notation settled := (settled mem ab).

Lemma settled_mk : forall c, settled c ->
  c = mk (ec_fsm c) (ec_cnt c) (ec_din c) (ec_isr c) (ec_off c) (ec_ddrv c) (ec_dbit c) (ec_scl_r c) (ec_sda_r c).
Proof.
  intros c S. destruct (settled_fields mem ab c S) as (A & B & _).
  destruct c. unfold EdidSettle.mk, sda_drv in *. cbn in *. subst. reflexivity.
Qed.

Definition cnt_ok (f : ed_fsm) (cnt : nat) : bool :=
  match f with
  | ACK_ADDRESS0 | ACK_ADDRESS1 | ACK_OFFSET0 | ACK_OFFSET1 | ACK_READ => Nat.eqb cnt 8
  | ACK_ADDRESS2 | ACK_OFFSET2 => Nat.eqb cnt 0
  | RCV_ADDRESS | RCV_OFFSET => Nat.ltb cnt 8
  | WAIT_START | READ => Nat.leb cnt 8
  end.

Definition is_read_st (f : ed_fsm) : bool := match f with READ => true | _ => false end.

(** [ml]: the next sample has SCL low. *)
Definition inv_b (ml : bool) (c : ed_core) : bool :=
  cnt_ok (ec_fsm c) (ec_cnt c) &&
  (if ec_ddrv c && negb (ec_dbit c)
   then is_read_st (ec_fsm c) && (negb (ec_sda_r c) || (ml && negb (ec_scl_r c)))
   else true) &&
  (match ec_fsm c with
   | ACK_ADDRESS1 | ACK_OFFSET1 => negb (ec_scl_r c)
   | ACK_ADDRESS2 | ACK_OFFSET2 => ec_scl_r c
   | ACK_READ => negb (ec_scl_r c)
   | ACK_ADDRESS0 | ACK_OFFSET0 => ec_scl_r c
   | _ => true
   end) &&
  (match ec_fsm c with
   | ACK_ADDRESS1 | ACK_OFFSET1 | ACK_ADDRESS2 | ACK_OFFSET2 => negb (ec_sda_r c) || (ml && negb (ec_scl_r c))
   | _ => true
   end) &&
  (match ec_fsm c with
   | READ => if ec_scl_r c then true else Nat.ltb (ec_cnt c) 8 && ec_ddrv c && Bool.eqb (ec_dbit c) (Z.testbit (mem (ec_off c)) (7 - Z.of_nat (ec_cnt c)))
   | _ => true
   end).

Lemma inv_step : forall ml c scl m, settled c -> inv_b ml c = true -> (ml = true -> scl = false) ->
  inv_b (ec_scl_r c && negb scl) (bstep c (scl, line c m)) = true.
Proof.
  intros ml c scl m S I Hml. rewrite (settled_mk c S) in *. clear S.
  destruct c as [scl_r sda_r cnt din isr off dat dbit ddrv drv fsm].
  cbn [ec_scl_r ec_sda_r ec_cnt ec_din ec_isr ec_off ec_dat ec_dbit ec_ddrv ec_drv ec_fsm] in *.
  unfold inv_b in I. unfold EdidSettle.mk in I.
  cbn [ec_scl_r ec_sda_r ec_cnt ec_din ec_isr ec_off ec_dat ec_dbit ec_ddrv ec_drv ec_fsm] in I.
  unfold line, EdidSettle.mk. cbn [ec_drv ec_scl_r].
  assert (Hs : ml = false \/ scl = false) by (destruct ml; [right; apply Hml; reflexivity | left; reflexivity]).
  clear Hml.
  assert (B8 : cnt <= 8).
  { apply andb_true_iff in I. destruct I as [I _]. apply andb_true_iff in I. destruct I as [I _].
    apply andb_true_iff in I. destruct I as [I _]. apply andb_true_iff in I. destruct I as [I _].
    destruct fsm; cbn [cnt_ok] in I;
      repeat match goal with H : (_ =? _) = true |- _ => apply Nat.eqb_eq in H | H : (_ <? _) = true |- _ => apply Nat.ltb_lt in H
        | H : (_ <=? _) = true |- _ => apply Nat.leb_le in H end; lia. }
  destruct cnt as [|[|[|[|[|[|[|[|[|cnt]]]]]]]]]; [.. | exfalso; lia]; clear B8.
  all: abstract (destruct Hs as [-> | ->]; destruct fsm; cbn [cnt_ok Nat.eqb Nat.ltb Nat.leb andb] in I; try discriminate I;
    try match goal with |- context [ACK_ADDRESS2] => destruct isr end;
    destruct ddrv, dbit, sda_r, scl_r; cbn [is_read_st andb negb orb Nat.ltb Nat.leb] in I; rewrite ?andb_false_r in I; try discriminate I;
    cbn [zero_drv orb andb negb]; rewrite ?andb_true_r, ?andb_false_r;
    try destruct scl; try destruct m; cbn [andb];
    unfold EdidSettle.bstep; cbn [fst snd zero_drv steps];
    do 10 (ed_eval; cbn [andb orb negb Nat.eqb];
      try match goal with |- context [if (slice ?p ?q ?r =? ?w)%Z then _ else _] => destruct (slice p q r =? w)%Z end);
    unfold inv_b; cbn [ec_scl_r ec_sda_r ec_cnt ec_din ec_isr ec_off ec_dat ec_dbit ec_ddrv ec_drv ec_fsm andb negb orb cnt_ok is_read_st Nat.eqb Nat.ltb Nat.leb];
    rewrite ?eqb_reflx, ?orb_true_r; try reflexivity;
    match goal with |- context [Z.testbit ?p ?q] => destruct (Z.testbit p q); first [reflexivity | discriminate I] end).
Qed.
End I.
