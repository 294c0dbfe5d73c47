(** The whole terminal: bus side and video side on one RAM, and the files it is initialised from.
    /repo/litevideo/terminal/core.py:36-94, 164-264. *)
From Coq Require Import ZArith List Bool.
From Verif Require Import Hdl TerminalModel.
Import ListNotations.
Open Scope Z_scope.

(** core.py:44-55.  [None] for the name '', otherwise the contents of the file; the result is [None]
    if an exception is raised. *)
Definition read_ram_init_file (file : option (list Z)) (size : nat) : option (list Z) :=
  match file with
  | None => Some (repeat 0 size)
  | Some data => if Nat.eqb (length data) size then Some data else None
  end.
(** core.py:69-75. *)
Definition terminal_init (screen font : option (list Z)) : option (list Z) :=
  match read_ram_init_file screen 4800, read_ram_init_file font 4096 with
  | Some s, Some f => Some (s ++ f)
  | _, _ => None
  end.
(** The RAM at power-up (Memory, core.py:75). *)
Definition ram_of (l : list Z) (a : Z) : Z := nth (Z.to_nat a) l 0.

(** One instant: which clocks have an edge, what the bus master does, and, for a byte that the bus side
    writes at the very edge at which the video side reads it, which bits are already the new ones. *)
Record tt_in := { tt_sys : bool; tt_vga : bool; tt_wb : wb_in; tt_new : list bool }.
Record tt_st := { tt_tw : tw_st; tt_tm : tm_st }.
Definition tt_init (m0 : Z -> Z) : tt_st := {| tt_tw := tw_init m0; tt_tm := tm_init |}.
(** Eight bits, each old or new. *)
Definition mix (new : list bool) (a b : Z) : Z := of_bits (map (fun k => Z.testbit (if nth k new false then b else a) (Z.of_nat k)) (seq 0 8)).
(** What the read port delivers during an instant: core.py:78-79 (the port in the vga clock domain). *)
Definition tt_seen (s : tt_st) (i : tt_in) (a : Z) : Z :=
  let old := tw_mem (tt_tw s) in
  if tt_sys i then mix (tt_new i) (old a) (tw_mem (tw_step (tt_tw s) (tt_wb i)) a) else old a.
Definition tt_step (s : tt_st) (i : tt_in) : tt_st :=
  {| tt_tw := if tt_sys i then tw_step (tt_tw s) (tt_wb i) else tt_tw s;
     tt_tm := if tt_vga i then tm_step (tt_tm s) (tt_seen s i) else tt_tm s |}.
Definition tt_run (m0 : Z -> Z) (i : nat -> tt_in) (t : nat) : tt_st := at_ tt_step (tt_init m0) i t.
