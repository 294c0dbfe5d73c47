(** Model of the character synchroniser.
    /repo/litevideo/input/charsync.py:12-59. *)
From Coq Require Import ZArith List Bool.
From Verif Require Import Hdl TmdsModel.
Import ListNotations.
Open Scope Z_scope.

(** Registers: charsync.py:15-16 (synced, data), 23 (raw_data1), 28-29
    (found_control, control_position), 37-39 (control_counter,
    previous_control_position, word_sel).  The two-flop copies of [synced] and
    [word_sel] in the system clock domain (54-57) are those of StatusModel.v. *)
Record cs_st := {
  cs_raw1 : Z; cs_found : bool; cs_pos : Z; cs_cnt : Z; cs_prev : Z; cs_sel : Z;
  cs_synced : bool; cs_data : Z
}.

Definition cs_init : cs_st :=
  {| cs_raw1 := 0; cs_found := false; cs_pos := 0; cs_cnt := 0; cs_prev := 0; cs_sel := 0;
     cs_synced := false; cs_data := 0 |}.

(** charsync.py:32: [reduce(or_, [raw[i:i+10] == t for t in control_tokens])]. *)
Definition cs_match (raw i : Z) : bool := existsb (fun t => slice i 10 raw =? t) control_tokens.

(** charsync.py:30-35: for i = 0..9 in order, the last match wins; without a
    match [found_control] is 0 and [control_position] is kept. *)
Definition cs_search (raw pos : Z) : bool * Z :=
  fold_left (fun (a : bool * Z) i => if cs_match raw i then (true, i) else a)
            [0; 1; 2; 3; 4; 5; 6; 7; 8; 9] (false, pos).

(** One clock of the pix domain, [rc] = required_controls (8 by default),
    [x] = raw_data. *)
Definition cs_step (rc : Z) (s : cs_st) (x : Z) : cs_st :=
  let raw := cs_raw1 s + 1024 * x in                               (* 26 *)
  let f := cs_search raw (cs_pos s) in
  let hit := cs_found s && (cs_pos s =? cs_prev s) in              (* 41 *)
  let full := cs_cnt s =? rc - 1 in                                (* 42 *)
  {| cs_raw1 := x;                                                 (* 24 *)
     cs_found := fst f; cs_pos := snd f;
     cs_cnt := if hit then if full then 0 else trunc (bits_for (rc - 1)) (cs_cnt s + 1) else 0;
     cs_prev := cs_pos s;                                          (* 52 *)
     cs_sel := if hit && full then cs_pos s else cs_sel s;         (* 45 *)
     cs_synced := (hit && full) || cs_synced s;                    (* 44 *)
     cs_data := slice (cs_sel s) 10 raw                            (* 59 *)
  |}.

Definition cs_run (rc : Z) (s0 : cs_st) (x : nat -> Z) (n : nat) : cs_st := at_ (cs_step rc) s0 x n.
