(** Model of the channel synchroniser (elastic buffers).
    /repo/litevideo/input/chansync.py. *)
From Coq Require Import ZArith List Bool.
From Verif Require Import Hdl.
Import ListNotations.
Open Scope nat_scope.

(** input/common.py:12, channel_layout. *)
Record chan := { ch_raw : Z; ch_d : Z; ch_c : Z; ch_de : bool }.

(** chansync.py:14-42, _SyncBuffer: [produce], [consume] and the memory. *)
Record sbuf := { sb_prod : nat; sb_cons : nat; sb_mem : list chan }.

Definition chan0 : chan := {| ch_raw := 0; ch_d := 0; ch_c := 0; ch_de := false |}.

(** Memory write. *)
Fixpoint upd {A : Type} (p : nat) (x : A) (l : list A) : list A :=
  match l, p with
  | [], _ => []
  | _ :: r, O => x :: r
  | a :: r, S q => a :: upd q x r
  end.

(** migen.genlib.fifo._inc: increment modulo [depth]. *)
Definition inc (depth p : nat) : nat := if Nat.eqb p (depth - 1) then 0 else p + 1.

(** chansync.py:36-41: asynchronous read at [consume]. *)
Definition sb_dout (b : sbuf) : chan := nth (sb_cons b) (sb_mem b) chan0.

(** chansync.py:27-34 and 42: write [din] at [produce] every clock; advance
    [consume] when [re]. *)
Definition sb_step (depth : nat) (b : sbuf) (re : bool) (din : chan) : sbuf :=
  {| sb_prod := inc depth (sb_prod b);
     sb_cons := if re then inc depth (sb_cons b) else sb_cons b;
     sb_mem := upd (sb_prod b) din (sb_mem b) |}.

(** chansync.py:45-95, ChanSync with [nchan] channels.  The two-flop copy of
    [chan_synced] for the CSR (95) is that of StatusModel.v. *)
Record cy_st := { cy_bufs : list sbuf; cy_synced : bool }.
Record cy_in := { cyi_valid : bool; cyi_data : nat -> chan }.

(** Reset state of a buffer of [depth] words: pointers and memory at 0. *)
Definition sb_init (depth : nat) : sbuf :=
  {| sb_prod := 0; sb_cons := 0; sb_mem := repeat chan0 depth |}.

Definition cy_init (nchan depth : nat) : cy_st :=
  {| cy_bufs := repeat (sb_init depth) nchan; cy_synced := false |}.

(** The buffer of channel [i]. *)
Definition cy_buf (s : cy_st) (i : nat) : sbuf := nth i (cy_bufs s) (sb_init 0).

(** chansync.py:67-70. *)
Definition cy_out (s : cy_st) (i : nat) : chan := sb_dout (cy_buf s i).

(** chansync.py:71-73. *)
Definition cy_is_control (s : cy_st) (i : nat) : bool := negb (ch_de (cy_out s i)).

(** chansync.py:79-82. *)
Definition cy_all (nchan : nat) (s : cy_st) : bool := forallb (cy_is_control s) (seq 0 nchan).
Definition cy_some (nchan : nat) (s : cy_st) : bool := existsb (cy_is_control s) (seq 0 nchan).

Definition cy_step (nchan depth : nat) (s : cy_st) (i : cy_in) : cy_st :=
  {| cy_bufs := map (fun k => sb_step depth (cy_buf s k)
                                (negb (cy_is_control s k) || cy_all nchan s)  (* 74 *)
                                (cyi_data i k)) (seq 0 nchan);
     cy_synced := if negb (cyi_valid i) then false                         (* 83-94 *)
                  else if cy_some nchan s then cy_all nchan s else cy_synced s |}.

Definition cy_run (nchan depth : nat) (s0 : cy_st) (i : nat -> cy_in) (n : nat) : cy_st :=
  at_ (cy_step nchan depth) s0 i n.
