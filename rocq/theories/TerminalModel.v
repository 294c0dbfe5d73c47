(** Model of the text terminal.  /repo/litevideo/terminal/core.py:58-end.
    The video side runs in the vga clock domain, the bus side in the sys clock
    domain; they only share the RAM contents.  Memory ports are Migen's
    defaults: the address is registered in the port, the data output shows
    the current contents at the registered address. *)
From Coq Require Import ZArith List Bool.
From Verif Require Import Hdl.
Import ListNotations.
Open Scope Z_scope.

(** * Video side *)

(** core.py:101, 111-119. *)
Definition FONT_ADDR := 4800.
Definition H_SYNC_PULSE := 96. Definition H_BACK_PORCH := 144. Definition H_DATA := 784. Definition H_FRONT_PORCH := 800.
Definition V_SYNC_PULSE := 2. Definition V_BACK_PORCH := 31. Definition V_DATA := 511. Definition V_FRONT_PORCH := 521.

(** core.py:154-162. *)
Definition palette : list Z :=
  [0x000000; 0x0000aa; 0x00aa00; 0x00aaaa; 0xaa0000; 0xaa00aa; 0xaa5500; 0xaaaaaa;
   0x555555; 0x5555ff; 0x55ff55; 0x55ffff; 0xff5555; 0xff55ff; 0xffff55; 0xffffff].
Definition tm_lookup (c : Z) : Z := nth (Z.to_nat c) palette 0.

(** All registers of the vga domain.  [tm_adr] is rdport.adr (14 bits), [tm_madr] the address
    register inside the read port.  [tm_rgb] is Cat(blue, green, red). *)
Record tm_st := {
  tm_rgb : Z; tm_hs : bool; tm_vs : bool;
  tm_pc : Z; tm_lc : Z;
  tm_ta : Z; tm_tas : Z; tm_fline : Z; tm_fx : Z;
  tm_fbyte : Z; tm_nbyte : Z; tm_fg : Z; tm_nfg : Z; tm_bg : Z; tm_color : Z; tm_ci : Z;
  tm_adr : Z; tm_madr : Z
}.
Definition tm_init : tm_st :=
  {| tm_rgb := 0; tm_hs := false; tm_vs := false; tm_pc := 0; tm_lc := 0; tm_ta := 0; tm_tas := 0; tm_fline := 0; tm_fx := 0;
     tm_fbyte := 0; tm_nbyte := 0; tm_fg := 0; tm_nfg := 0; tm_bg := 0; tm_color := 0; tm_ci := 0; tm_adr := 0; tm_madr := 0 |}.

(** core.py:171-172: the pixel being shown is inside the picture. *)
Definition tm_active (s : tm_st) : bool :=
  (V_BACK_PORCH <=? tm_lc s) && (tm_lc s <? V_DATA) && (H_BACK_PORCH <=? tm_pc s) && (tm_pc s <? H_DATA).

(** One clock, core.py:164-264; [mem] is the RAM content during the clock.
    Within a clock, later assignments win. *)
Definition tm_step (s : tm_st) (mem : Z -> Z) : tm_st :=
  let dat_r := mem (tm_madr s) in
  let eol := tm_pc s =? H_FRONT_PORCH in
  {| tm_rgb := if tm_active s then (if Z.testbit (tm_fbyte s) 7 then tm_fg s else tm_bg s) else 0;
     tm_hs := if tm_pc s <? H_SYNC_PULSE then false else if tm_pc s <? H_BACK_PORCH then true else tm_hs s;
     tm_vs := if tm_lc s <? V_SYNC_PULSE then false else if tm_lc s <? V_BACK_PORCH then true else tm_vs s;
     tm_pc := if eol then 0 else trunc 10 (tm_pc s + 1);
     tm_lc := if tm_lc s =? V_FRONT_PORCH then 0 else if eol then trunc 10 (tm_lc s + 1) else tm_lc s;
     tm_ta := if tm_pc s =? H_BACK_PORCH - 9 then tm_tas s
              else if (tm_fx s =? 1) || (tm_fx s =? 2) then trunc 16 (tm_ta s + 1) else tm_ta s;
     tm_tas := if tm_lc s =? V_BACK_PORCH - 1 then 0
               else if eol && (tm_fline s =? 15) then trunc 16 (tm_tas s + 160) else tm_tas s;
     tm_fline := if tm_lc s =? V_BACK_PORCH - 1 then 0
                 else if eol then (if tm_fline s =? 15 then 0 else trunc 4 (tm_fline s + 1)) else tm_fline s;
     tm_fx := if tm_pc s =? H_BACK_PORCH - 9 then 0 else if tm_fx s =? 7 then 0 else trunc 3 (tm_fx s + 1);
     tm_fbyte := if tm_fx s =? 7 then tm_nbyte s
                 else if tm_active s then trunc 8 (2 * tm_fbyte s) else tm_fbyte s;
     tm_nbyte := if tm_fx s =? 5 then dat_r else tm_nbyte s;
     tm_fg := if tm_fx s =? 7 then tm_nfg s else tm_fg s;
     tm_nfg := if tm_fx s =? 6 then tm_lookup (tm_ci s) else tm_nfg s;
     tm_bg := if tm_fx s =? 7 then tm_lookup (tm_ci s) else tm_bg s;
     tm_color := if tm_fx s =? 4 then dat_r else tm_color s;
     tm_ci := if tm_fx s =? 5 then slice 0 4 (tm_color s) else if tm_fx s =? 6 then slice 4 4 (tm_color s) else tm_ci s;
     tm_adr := if tm_fx s =? 3 then trunc 14 (FONT_ADDR + 16 * dat_r + tm_fline s)
               else if (tm_fx s =? 1) || (tm_fx s =? 2) then trunc 14 (tm_ta s) else tm_adr s;
     tm_madr := tm_adr s |}.
(** [mem n] is the RAM content during vga clock [n]. *)
Definition tm_run (mem : nat -> Z -> Z) (n : nat) : tm_st := at_ tm_step tm_init mem n.

(** * Bus side, core.py:60-94 *)
Record wb_in := { wbi_cyc : bool; wbi_stb : bool; wbi_we : bool; wbi_adr : Z; wbi_dat : Z }.
Record tw_st := { tw_ack : bool; tw_we : bool; tw_dat : Z; tw_madr : Z; tw_mem : Z -> Z }.
Definition tw_init (mem : Z -> Z) : tw_st := {| tw_ack := false; tw_we := false; tw_dat := 0; tw_madr := 0; tw_mem := mem |}.
Definition tw_dat_r (s : tw_st) : Z := tw_mem s (tw_madr s).
Definition tw_step (s : tw_st) (i : wb_in) : tw_st :=
  let start := wbi_cyc i && wbi_stb i && negb (tw_ack s) in
  let adr := trunc 14 (wbi_adr i) in
  {| tw_ack := start;
     tw_we := start && wbi_we i;
     tw_dat := if start && wbi_we i then trunc 8 (wbi_dat i) else tw_dat s;
     tw_madr := adr;
     tw_mem := if tw_we s then (fun a => if a =? adr then tw_dat s else tw_mem s a) else tw_mem s |}.
Definition tw_run (mem : Z -> Z) (i : nat -> wb_in) (n : nat) : tw_st := at_ tw_step (tw_init mem) i n.
