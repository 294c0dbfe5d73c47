(** Model of the receiver's analysis stage.
    /repo/litevideo/input/analysis.py. *)
From Coq Require Import ZArith List Bool.
From Verif Require Import Hdl.
Import ListNotations.
Open Scope Z_scope.

(** ** SyncPolarity, analysis.py:12-71 *)

(** Inputs: valid_i, the DE in use (33-36: channel 0's, or the HDMI tracker's),
    the two control bits of channel 0 (39), the three data bytes.  The raw
    words re-timed in the pix_o domain (67-71) are not modelled. *)
Record sp_in := { spi_valid : bool; spi_de : bool; spi_c : bool * bool; spi_d : Z * Z * Z }.

(** Registers (38, 40-41, 50-64); [c] pairs are (bit 0, bit 1). *)
Record sp_st := {
  sp_valid : bool; sp_de : bool; sp_pol : bool * bool; sp_c : bool * bool;
  sp_r : Z; sp_g : Z; sp_b : Z
}.

Definition sp_init : sp_st :=
  {| sp_valid := false; sp_de := false; sp_pol := (false, false); sp_c := (false, false);
     sp_r := 0; sp_g := 0; sp_b := 0 |}.

Definition xor2 (a b : bool * bool) : bool * bool := (xorb (fst a) (fst b), xorb (snd a) (snd b)).

(** analysis.py:43-64.  The signal named de_rising in the code (47) is true
    when DE falls. *)
Definition sp_step (s : sp_st) (i : sp_in) : sp_st :=
  let edge := sp_de s && negb (spi_de i) in
  let '(d0, d1, d2) := spi_d i in
  {| sp_valid := spi_valid i; sp_de := spi_de i;
     sp_pol := if edge then spi_c i else sp_pol s;
     sp_c := if edge then (false, false) else xor2 (spi_c i) (sp_pol s);
     sp_r := d2; sp_g := d1; sp_b := d0 |}.

Definition sp_hsync (s : sp_st) : bool := fst (sp_c s).
Definition sp_vsync (s : sp_st) : bool := snd (sp_c s).

(** ** ResolutionDetection, analysis.py:74-130 *)

(** [nbits] is the constructor argument.  The two-flop copies to the CSR
    (107, 130) of [rd_h] and [rd_v] are those of StatusModel.v. *)
Record rd_in := { rdi_valid : bool; rdi_vsync : bool; rdi_de : bool }.
Record rd_st := { rd_de_r : bool; rd_hc : Z; rd_h : Z; rd_vs_r : bool; rd_vc : Z; rd_v : Z }.

Definition rd_init : rd_st :=
  {| rd_de_r := false; rd_hc := 0; rd_h := 0; rd_vs_r := false; rd_vc := 0; rd_v := 0 |}.

Definition rd_step (nbits : Z) (s : rd_st) (i : rd_in) : rd_st :=
  let pn_de := negb (rdi_de i) && rd_de_r s in                                   (* 89 *)
  let p_vsync := rdi_vsync i && negb (rd_vs_r s) in                              (* 113 *)
  {| rd_de_r := rdi_de i;                                                        (* 88 *)
     rd_hc := if rdi_valid i && rdi_de i then trunc nbits (rd_hc s + 1) else 0;  (* 93-98 *)
     rd_h := if rdi_valid i then (if pn_de then rd_hc s else rd_h s) else 0;     (* 101-106 *)
     rd_vs_r := rdi_vsync i;                                                     (* 112 *)
     rd_vc := if rdi_valid i && p_vsync then 0                                   (* 116-121 *)
              else if pn_de then trunc nbits (rd_vc s + 1) else rd_vc s;
     rd_v := if rdi_valid i then (if p_vsync then rd_vc s else rd_v s) else 0 |}. (* 124-129 *)

(** ** FrameExtraction, analysis.py:133-287 *)

(** Encoded pixel of the rgb mode, analysis.py:216-218: Cat(b, g, r, 0). *)
Definition rgb_pixel (r g b : Z) : Z := b + 256 * g + 65536 * r.

(** The packer (198-209 and 222-233 are the same code for 16 and 32 bit
    pixels).  [pki_we]/[pki_px]: a pixel is present (valid & de).  The word
    register is a list of [F] lanes, lane 0 in the least significant bits. *)
Record pk_in := { pki_vsync : bool; pki_we : bool; pki_px : Z }.
Record pk_st := { pk_vs_r : bool; pk_lanes : list Z; pk_valid : bool; pk_cnt : Z; pk_sof : bool }.

Definition pk_init (F : nat) : pk_st :=
  {| pk_vs_r := false; pk_lanes := repeat 0 F; pk_valid := false; pk_cnt := 0; pk_sof := false |}.

(** analysis.py:156. *)
Definition pk_new_frame (s : pk_st) (i : pk_in) : bool := pki_vsync i && negb (pk_vs_r s).

(** analysis.py:197, 221: Signal(max=pack_factor). *)
Definition pk_bits (F : nat) : Z := bits_for (Z.of_nat F - 1).

Definition pk_step (F : nat) (s : pk_st) (i : pk_in) : pk_st :=
  let nf := pk_new_frame s i in
  let full := pk_cnt s =? Z.of_nat F - 1 in
  {| pk_vs_r := pki_vsync i;                                                     (* 157 *)
     pk_lanes := if nf then pk_lanes s                                           (* 200-206 *)
                 else if pki_we i then
                   map (fun k => if pk_cnt s =? Z.of_nat (F - k - 1) then pki_px i
                                 else nth k (pk_lanes s) 0) (seq 0 F)
                 else pk_lanes s;
     pk_valid := if nf then full else if pki_we i then full else false;
     pk_cnt := if nf then 0 else if pki_we i then trunc (pk_bits F) (pk_cnt s + 1) else pk_cnt s;
     pk_sof := if nf then true else if pk_valid s then false else pk_sof s |}.   (* 245-250 *)

Definition pk_run (F : nat) (i : nat -> pk_in) (n : nat) : pk_st := at_ (pk_step F) (pk_init F) i n.

(** analysis.py:236-244: the word pushed into the FIFO in a clock, if any:
    (sof, lanes). *)
Definition pk_push (s : pk_st) : option (bool * list Z) :=
  if pk_valid s then Some (pk_sof s, pk_lanes s) else None.

(** ** Overflow flag in the pix domain, analysis.py:257-266 *)
Record ov_in := { ovi_push : bool; ovi_ready : bool; ovi_reset : bool }.
Definition ov_step (s : bool) (i : ov_in) : bool :=
  if ovi_push i && negb (ovi_ready i) then true else if ovi_reset i then false else s.
