(** Model of the receiver's interrupt: one level-sensitive source per slot and an event
    manager.  /repo/litevideo/input/dma.py:13, 31, 37, 48-49, 76 and
    /repo/litevideo/input/__init__.py:154.  EventSourceLevel and EventManager are LiteX's
    (litex/soc/interconnect/csr_eventmanager.py), written from knowledge of the library:
    status and pending of a level source are its trigger, a write of the pending register
    has no effect on it, and irq is the OR of pending and enable, bit [n] for source [n]. *)
From Coq Require Import ZArith List Bool.
From Verif Require Import Hdl InDmaModel.
Import ListNotations.
Open Scope Z_scope.

(** The pending register: bit [k + j] for slot [j] of the list.  dma.py:31. *)
Fixpoint ev_pending (l : list slot) (k : Z) : Z :=
  match l with
  | [] => 0
  | s :: r => (if sl_event s then 2 ^ k else 0) + ev_pending r (k + 1)
  end.
(** The interrupt line for the enable register [en]. *)
Fixpoint ev_irq (en : Z) (l : list slot) (k : Z) : bool :=
  match l with
  | [] => false
  | s :: r => (sl_event s && Z.testbit en k) || ev_irq en r (k + 1)
  end.
