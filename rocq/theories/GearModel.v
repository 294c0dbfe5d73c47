(** Model of the Series 7 receive path from the deserialiser to the ten-bit words:
    /repo/litevideo/input/datacapture.py:375-392 (polarity and Gearbox).
    Gearbox is Migen's (migen/genlib/cdc.py): a storage of 2*lcm(iwidth, owidth)
    bits, written in chunks of [iw] bits in one clock domain and read in chunks of [ow] bits in
    the other, with pointers that only count; written from knowledge of the
    library. *)
From Coq Require Import ZArith List Bool Arith.
From Verif Require Import Hdl SerialModel.
Import ListNotations.
Open Scope nat_scope.

(** One instant: edges of the write and the read clock, and the input word. *)
Record gb_in := { gbi_w : bool; gbi_r : bool; gbi_i : Z }.
(** The storage as [wc] chunks, the pointers, and the output register. *)
Record gb_st := { gb_mem : list Z; gb_wp : nat; gb_rp : nat; gb_o : Z }.

Definition gb_upd (k : nat) (v : Z) (l : list Z) : list Z := firstn k l ++ v :: skipn (S k) l.
(** Bit [k] of the storage. *)
Definition gb_bit (iw : nat) (l : list Z) (k : nat) : bool := Z.testbit (nth (k / iw) l 0%Z) (Z.of_nat (k mod iw)).

(** [wc] and [rc] chunks; reset values of the pointers for [iw <= ow]: half the
    storage apart (wrpointer wrchunks//2, rdpointer 0). *)
Definition gb_step (iw ow wc rc : nat) (s : gb_st) (i : gb_in) : gb_st :=
  {| gb_mem := if gbi_w i then gb_upd (gb_wp s) (trunc (Z.of_nat iw) (gbi_i i)) (gb_mem s) else gb_mem s;
     gb_wp := if gbi_w i then (if gb_wp s =? wc - 1 then 0 else S (gb_wp s)) else gb_wp s;
     gb_rp := if gbi_r i then (if gb_rp s =? rc - 1 then 0 else S (gb_rp s)) else gb_rp s;
     gb_o := if gbi_r i then of_bits (map (fun j => gb_bit iw (gb_mem s) (ow * gb_rp s + j)) (seq 0 ow)) else gb_o s |}.
Definition gb_init (wc : nat) : gb_st := {| gb_mem := repeat 0%Z wc; gb_wp := wc / 2; gb_rp := 0; gb_o := 0%Z |}.
Definition gb_run iw ow wc rc (i : nat -> gb_in) (n : nat) : gb_st := at_ (gb_step iw ow wc rc) (gb_init wc) i n.

(** datacapture.py:387-392: Gearbox(8, "pix1p25x", 10, "pix"): 80 bits, ten chunks
    to write, eight to read.  [gbi_i] is the deserialiser's output; polarity at 375-385. *)
Definition cap7_in (inverted : bool) (i : gb_in) : gb_in :=
  {| gbi_w := gbi_w i; gbi_r := gbi_r i; gbi_i := s7_mdata inverted (gbi_i i) |}.
Definition cap7_run (inverted : bool) (i : nat -> gb_in) (n : nat) : gb_st :=
  gb_run 8 10 10 8 (fun t => cap7_in inverted (i t)) n.
