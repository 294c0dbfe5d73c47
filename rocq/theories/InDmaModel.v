(** Model of the capture DMA with its buffer slots.
    /repo/litevideo/input/dma.py. *)
From Coq Require Import ZArith List Bool.
From Verif Require Import Hdl ChanSyncModel.
Import ListNotations.
Open Scope Z_scope.

(** _Slot, dma.py:11-32: the two CSR registers of a slot.
    Status: EMPTY=0 LOADED=1 PENDING=2 (dma.py:10). *)
Record slot := { sl_status : Z; sl_addr : Z }.
Definition slot0 : slot := {| sl_status := 0; sl_addr := 0 |}.

(** dma.py:26, 31. *)
Definition sl_loaded (s : slot) : bool := Z.testbit (sl_status s) 0.
Definition sl_event (s : slot) : bool := Z.testbit (sl_status s) 1.

(** Software access in a clock: the register's new value.  A register wider than
    the CSR bus is written part by part; each part is one access here, whose [v]
    has the new part and the old value of the rest. *)
Inductive sw := SwNone | SwStatus (n : nat) (v : Z) | SwAddr (n : nat) (v : Z).

Inductive dma_fsm := WAIT_SOF | TRANSFER | EOF.

Record dma_st := {
  dm_slots : list slot; dm_cur : nat; dm_addr : Z; dm_left : Z; dm_fsm : dma_fsm
}.

(** Inputs: the frame stream (73), the memory writer's readiness (108), the
    wdata.valid signal of the DRAM port (141), the frame size register in
    bytes (74), a software access. *)
Record dma_in := {
  dmi_valid : bool; dmi_sof : bool; dmi_px : Z; dmi_ready : bool; dmi_wbusy : bool;
  dmi_size : Z; dmi_sw : sw
}.

Section Dma.
(** Address bits, data bits and alignment bits of the memory port. *)
Variables aw dw align : Z.

Definition dma_init (nslots : nat) : dma_st :=
  {| dm_slots := repeat slot0 nslots; dm_cur := 0%nat; dm_addr := 0; dm_left := 0; dm_fsm := WAIT_SOF |}.

(** dma.py:25: word address of a slot. *)
Definition sl_word (s : slot) : Z := slice align aw (sl_addr s).

(** dma.py:57-60; a Migen Array index past the end selects the last element. *)
Definition dm_slot (s : dma_st) : slot :=
  nth (Nat.min (dm_cur s) (length (dm_slots s) - 1)) (dm_slots s) slot0.
Definition dm_av (s : dma_st) : bool := sl_loaded (dm_slot s).

(** dma.py:140-145. *)
Definition dm_done (s : dma_st) (i : dma_in) : bool :=
  match dm_fsm s with EOF => negb (dmi_wbusy i) | _ => false end.

(** dma.py:128-139: a word accepted by the memory writer: its address and data
    (101-105: the low [dw] bits of the replicated pixels). *)
Definition dm_write (s : dma_st) (i : dma_in) : option (Z * Z) :=
  match dm_fsm s with
  | TRANSFER => if dmi_valid i && dmi_ready i then Some (dm_addr s, trunc dw (dmi_px i)) else None
  | _ => None
  end.

(** dma.py:118-129: ready given to the frame stream. *)
Definition dm_ready (s : dma_st) (i : dma_in) : bool :=
  match dm_fsm s with
  | WAIT_SOF => negb (dm_av s) || negb (dmi_sof i)
  | TRANSFER => dmi_ready i
  | EOF => false
  end.

(** dma.py:122-125. *)
Definition dm_start (s : dma_st) (i : dma_in) : bool :=
  match dm_fsm s with WAIT_SOF => dm_av s && dmi_sof i && dmi_valid i | _ => false end.

(** dma.py:53-54: If chain over the slots from the last to the first; the last
    assignment, that of the lowest loaded slot, wins. *)
Fixpoint lowest (l : list slot) (k cur : nat) : nat :=
  match l with
  | [] => cur
  | s :: r => if sl_loaded s then k else lowest r (S k) cur
  end.

(** dma.py:27-30 with the CSR semantics: a device write, then a software write
    (which wins if both happen in one clock). *)
Definition slot_step (n : nat) (s : slot) (done : bool) (reached : Z) (w : sw) : slot :=
  let s1 := if done then {| sl_status := 2; sl_addr := reached * 2 ^ align |} else s in
  match w with
  | SwStatus m v => if Nat.eqb m n then {| sl_status := trunc 2 v; sl_addr := sl_addr s1 |} else s1
  | SwAddr m v => if Nat.eqb m n then {| sl_status := sl_status s1; sl_addr := trunc (aw + align) v |} else s1
  | SwNone => s1
  end.

Fixpoint slots_step (n : nat) (l : list slot) (cur : nat) (done : bool) (reached : Z) (w : sw) : list slot :=
  match l with
  | [] => []
  | s :: r => slot_step n s (done && Nat.eqb cur n) reached w :: slots_step (S n) r cur done reached w
  end.

Definition dma_step (s : dma_st) (i : dma_in) : dma_st :=
  let done := dm_done s i in
  let count := match dm_write s i with Some _ => true | None => false end in
  let reset := match dm_fsm s with WAIT_SOF => true | _ => false end in
  {| dm_slots := slots_step 0 (dm_slots s) (dm_cur s) done (dm_addr s) (dmi_sw i);
     dm_cur := if negb (dm_av s) || done then lowest (dm_slots s) 0 (dm_cur s) else dm_cur s;  (* 53-55 *)
     dm_addr := if reset then sl_word (dm_slot s)                                              (* 91-99 *)
                else if count then trunc aw (dm_addr s + 1) else dm_addr s;
     dm_left := if reset then slice align aw (dmi_size i)
                else if count then trunc aw (dm_left s - 1) else dm_left s;
     dm_fsm := match dm_fsm s with
               | WAIT_SOF => if dm_start s i then TRANSFER else WAIT_SOF
               | TRANSFER => if count && (dm_left s =? 1) then EOF else TRANSFER               (* 89, 134-136 *)
               | EOF => if done then WAIT_SOF else EOF
               end |}.

Definition dma_run (s0 : dma_st) (i : nat -> dma_in) (n : nat) : dma_st := at_ dma_step s0 i n.
End Dma.
