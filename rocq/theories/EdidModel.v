(** Model of the EDID I2C slave.
    /repo/litevideo/input/edid.py:30-258. *)
From Coq Require Import ZArith List Bool.
From Verif Require Import Hdl.
Import ListNotations.
Open Scope Z_scope.

(** edid.py:9-27: _default_edid. *)
Definition default_edid : list Z := [
   0; 255; 255; 255; 255; 255; 255; 0; 5; 184; 78; 84; 0; 0; 0; 0;
   19; 28; 1; 3; 128; 53; 30; 120; 10; 61; 133; 166; 86; 74; 154; 36;
   18; 80; 84; 0; 0; 0; 209; 192; 209; 192; 209; 192; 209; 192; 209; 192;
   209; 192; 209; 192; 209; 192; 1; 29; 128; 24; 113; 56; 45; 64; 83; 44;
   69; 0; 221; 12; 17; 0; 0; 30; 2; 58; 128; 24; 113; 56; 45; 64;
   83; 44; 69; 0; 221; 12; 17; 0; 0; 30; 0; 0; 0; 253; 0; 56;
   61; 30; 83; 15; 0; 10; 32; 32; 32; 32; 32; 32; 0; 0; 0; 252;
   0; 65; 108; 112; 104; 97; 109; 97; 120; 10; 32; 32; 32; 32; 1; 62;
   2; 3; 33; 241; 78; 144; 4; 3; 1; 20; 18; 5; 31; 16; 19; 0;
   0; 0; 0; 35; 9; 7; 7; 131; 1; 0; 0; 101; 3; 12; 0; 16;
   0; 2; 58; 128; 24; 113; 56; 45; 64; 88; 44; 69; 0; 221; 12; 17;
   0; 0; 30; 1; 29; 128; 24; 113; 28; 22; 32; 88; 44; 37; 0; 221;
   12; 17; 0; 0; 158; 1; 29; 0; 114; 81; 208; 30; 32; 110; 40; 85;
   0; 221; 12; 17; 0; 0; 30; 140; 10; 208; 138; 32; 224; 45; 16; 16;
   62; 150; 0; 221; 12; 17; 0; 0; 24; 0; 0; 0; 0; 0; 0; 0;
   0; 0; 0; 0; 0; 0; 0; 0; 0; 0; 0; 0; 0; 0; 0; 186].

Definition default_mem (a : Z) : Z := nth (Z.to_nat a) default_edid 0.

(** edid.py:179-253: FSM states. *)
Inductive ed_fsm :=
  | WAIT_START | RCV_ADDRESS | ACK_ADDRESS0 | ACK_ADDRESS1 | ACK_ADDRESS2
  | RCV_OFFSET | ACK_OFFSET0 | ACK_OFFSET1 | ACK_OFFSET2 | READ | ACK_READ.

(** Registers fed by the sampled bus: scl_r, sda_r (103-111), counter, din
    (121-133), is_read (138-140), offset_counter (142-150), the memory read
    register (152-154), data_bit, data_drv (155-177), _sda_drv_reg (60), FSM.
    The counter is [Signal(max=9)]: values 0..8, kept as a [nat]. *)
Record ed_core := {
  ec_scl_r : bool; ec_sda_r : bool; ec_cnt : nat; ec_din : Z; ec_isr : bool; ec_off : Z;
  ec_dat : Z; ec_dbit : bool; ec_ddrv : bool; ec_drv : bool; ec_fsm : ed_fsm
}.

Definition ec_init : ed_core :=
  {| ec_scl_r := false; ec_sda_r := false; ec_cnt := 0; ec_din := 0; ec_isr := false; ec_off := 0;
     ec_dat := 0; ec_dbit := false; ec_ddrv := false; ec_drv := false; ec_fsm := WAIT_START |}.

Section Edid.
(** edid.py:34-36, 142: memory contents, and width of the offset counter: bits_for(mem_size - 1). *)
Variable mem : Z -> Z.
Variable ab : Z.

(** edid.py:195-232: zero_drv. *)
Definition zero_drv (f : ed_fsm) : bool :=
  match f with ACK_ADDRESS1 | ACK_ADDRESS2 | ACK_OFFSET1 | ACK_OFFSET2 => true | _ => false end.

(** edid.py:157-164: sda_drv. *)
Definition sda_drv (c : ed_core) : bool := zero_drv (ec_fsm c) || (ec_ddrv c && negb (ec_dbit c)).

(** edid.py:108-258: one clock with the sampled bus at [scl], [sda] and hpd_en at
    [hpd].  Pads without hpd_en behave like [hpd = true]. *)
Definition ed_step (hpd scl sda : bool) (c : ed_core) : ed_core :=
  let rising := scl && negb (ec_scl_r c) in                                 (* 113 *)
  let start := scl && (negb sda && ec_sda_r c) in                           (* 115, 119 *)
  let c8 := Nat.eqb (ec_cnt c) 8 in
  let in_read := match ec_fsm c with READ => negb scl | _ => false end in   (* 234-243 *)
  let en := in_read && negb c8 in
  let stop := in_read && c8 in
  let addressed := match ec_fsm c with RCV_ADDRESS => c8 && (slice 1 7 (ec_din c) =? 80) | _ => false end in
  let load := match ec_fsm c with RCV_OFFSET => c8 | _ => false end in
  let inc := match ec_fsm c with ACK_READ => rising | _ => false end in
  {| ec_scl_r := scl; ec_sda_r := sda;
     ec_cnt := if rising then (if c8 then 0%nat else S (ec_cnt c))          (* 123-133 *)
               else if start then 0%nat else ec_cnt c;
     ec_din := if rising && negb c8 then b2z sda + 2 * slice 0 7 (ec_din c) else ec_din c;
     ec_isr := if addressed then Z.testbit (ec_din c) 0 else ec_isr c;
     ec_off := if load then trunc ab (ec_din c) else if inc then trunc ab (ec_off c + 1) else ec_off c;
     ec_dat := mem (ec_off c);
     ec_dbit := if en then Z.testbit (ec_dat c) (7 - Z.of_nat (ec_cnt c)) else ec_dbit c;
     ec_ddrv := if en then true else if stop then false else ec_ddrv c;
     ec_drv := sda_drv c;
     ec_fsm :=
       if negb hpd then WAIT_START                                          (* 257-258, last *)
       else if start then RCV_ADDRESS                                       (* 256 *)
       else match ec_fsm c with
            | WAIT_START => WAIT_START
            | RCV_ADDRESS => if c8 then (if addressed then ACK_ADDRESS0 else WAIT_START) else RCV_ADDRESS
            | ACK_ADDRESS0 => if negb scl then ACK_ADDRESS1 else ACK_ADDRESS0
            | ACK_ADDRESS1 => if scl then ACK_ADDRESS2 else ACK_ADDRESS1
            | ACK_ADDRESS2 => if negb scl then (if ec_isr c then READ else RCV_OFFSET) else ACK_ADDRESS2
            | RCV_OFFSET => if c8 then ACK_OFFSET0 else RCV_OFFSET
            | ACK_OFFSET0 => if negb scl then ACK_OFFSET1 else ACK_OFFSET0
            | ACK_OFFSET1 => if scl then ACK_OFFSET2 else ACK_OFFSET1
            | ACK_OFFSET2 => if negb scl then RCV_ADDRESS else ACK_OFFSET2
            | READ => if stop then ACK_READ else READ
            | ACK_READ => if rising then (if sda then WAIT_START else READ) else ACK_READ
            end |}.

(** The whole slave: two-flop synchronisers (54-83), the sampler (92-101) and
    the registers above.  Pads without the [inverted] attribute. *)
Record ed_st := {
  es_scl0 : bool; es_scl1 : bool; es_sda0 : bool; es_sda1 : bool;
  es_count : Z; es_carry : bool; es_scl_i : bool; es_sda_i : bool; es_core : ed_core
}.

(** Pad levels: SCL, the level the master gives to SDA (true = released), and
    the hpd_en register. *)
Record ed_in := { edi_scl : bool; edi_sda : bool; edi_hpd : bool }.

Definition ed_init : ed_st :=
  {| es_scl0 := false; es_scl1 := false; es_sda0 := false; es_sda1 := false;
     es_count := 0; es_carry := false; es_scl_i := false; es_sda_i := false; es_core := ec_init |}.

(** Open-drain SDA line (75-83): low if the master or the slave pulls it. *)
Definition ed_line (s : ed_st) (i : ed_in) : bool := edi_sda i && negb (ec_drv (es_core s)).

Definition edid_step (s : ed_st) (i : ed_in) : ed_st :=
  {| es_scl0 := edi_scl i; es_scl1 := es_scl0 s;
     es_sda0 := ed_line s i; es_sda1 := es_sda0 s;
     es_count := trunc 6 (es_count s + 1);                         (* 96: 7-bit Cat *)
     es_carry := Z.testbit (es_count s + 1) 6;
     es_scl_i := if es_carry s then es_scl1 s else es_scl_i s;     (* 97-100 *)
     es_sda_i := if es_carry s then es_sda1 s else es_sda_i s;
     es_core := ed_step (edi_hpd i) (es_scl_i s) (es_sda_i s) (es_core s) |}.

Definition edid_run (i : nat -> ed_in) (n : nat) : ed_st := at_ edid_step ed_init i n.
End Edid.
