(** Model of the half-precision float code: litevideo/float_arithmetic and the
    rgb <-> rgb16f converters of litevideo/csc.
    Register copies that are never read (the delayed inputs, in*_sign*, out_2..out_4,
    out_status1 of the adder, out_mult3) are left out.
    A shift by a negative amount (floatmult.py:142) has no Migen meaning (the simulator raises an
    exception); the amount is taken as the unsigned 7-bit number it is in the generated Verilog. *)
From Coq Require Import ZArith List Bool.
From Verif Require Import Hdl.
Import ListNotations.
Open Scope Z_scope.

(** LeadOne, float_arithmetic/common.py:12-22: the If statements in order, the last one wins. *)
Definition lead_one (dw : nat) (x : Z) : Z :=
  fold_left (fun acc j => if Z.testbit x (Z.of_nat j)
                          then trunc (bits_for (Z.of_nat dw - 1)) (Z.of_nat dw - Z.of_nat j - 1) else acc)
            (seq 0 dw) 0.

(** A pair of 16-bit operands. *)
Record fpair := { f_a : Z; f_b : Z }.

(** Fields, floatmult.py:62-71, floatadd.py:65-74. *)
Definition f_frac (x : Z) : Z := slice 0 10 x.
Definition f_exp (x : Z) : Z := slice 10 5 x.
(** Mantissa with the hidden bit and exponent with 0 replaced by 1, floatmult.py:73-88, floatadd.py:76-92. *)
Definition f_mant (x : Z) : Z := if f_exp x =? 0 then f_frac x else f_frac x + 1024.
Definition f_exp1 (x : Z) : Z := if f_exp x =? 0 then trunc 5 (f_exp x + 1) else f_exp x.

(** * FloatMultDatapath, floatmult.py:19-157 *)
Record fm_st := {
  fm_m1 : Z; fm_m2 : Z; fm_e1 : Z; fm_e2 : Z; fm_s1 : Z;      (* stage 1 *)
  fm_mult : Z; fm_exp : Z; fm_s2 : Z;                         (* stage 2 *)
  fm_ptr : Z; fm_exp3 : Z; fm_s3 : Z;                         (* stage 3 *)
  fm_expa : Z; fm_shift : Z; fm_s4 : Z;                       (* stage 4 *)
  fm_out : Z
}.
Definition fm_init : fm_st :=
  {| fm_m1 := 0; fm_m2 := 0; fm_e1 := 0; fm_e2 := 0; fm_s1 := 0; fm_mult := 0; fm_exp := 0; fm_s2 := 0;
     fm_ptr := 0; fm_exp3 := 0; fm_s3 := 0; fm_expa := 0; fm_shift := 0; fm_s4 := 0; fm_out := 0 |}.
Definition fm_latency : nat := 5.

Definition fm_step (s : fm_st) (i : fpair) : fm_st :=
  {| (* stage 1, lines 73-97 *)
     fm_m1 := f_mant (f_a i); fm_m2 := f_mant (f_b i); fm_e1 := f_exp1 (f_a i); fm_e2 := f_exp1 (f_b i);
     fm_s1 := if (f_exp (f_a i) =? 0) && (f_frac (f_a i) =? 0) then 0
              else if (f_exp (f_b i) =? 0) && (f_frac (f_b i) =? 0) then 0 else 3;
     (* stage 2, lines 105-109 *)
     fm_mult := trunc 22 (fm_m1 s * fm_m2 s);
     fm_exp := strunc 7 (fm_e1 s + fm_e2 s - 15);
     fm_s2 := fm_s1 s;
     (* stage 3, lines 111-130 *)
     fm_ptr := trunc 5 (lead_one 22 (fm_mult s));
     fm_exp3 := fm_exp s;
     fm_s3 := fm_s2 s;
     (* stage 4, lines 138-147: out_mult is the stage 2 register, not its stage 3 copy *)
     fm_expa := if fm_exp3 s - fm_ptr s <? 1 then 0 else strunc 7 (fm_exp3 s + 1 - fm_ptr s);
     fm_shift := if fm_exp3 s - fm_ptr s <? 1
                 then trunc 22 (fm_mult s / 2 ^ (trunc 7 (0 - fm_exp3 s)) * 2)
                 else trunc 22 (fm_mult s * 2 ^ (fm_ptr s + 1));
     fm_s4 := fm_s3 s;
     (* stage 5, lines 149-157 *)
     fm_out := if fm_s4 s =? 0 then 0
               else if fm_s4 s =? 3 then slice 12 10 (fm_shift s) + 1024 * slice 0 5 (fm_expa s)
               else fm_out s |}.

(** * FloatAddDatapath, floatadd.py:19-171 *)
Record fa_st := {
  fa_d : Z; fa_f1 : Z; fa_f2 : Z; fa_e1 : Z; fa_e2 : Z;       (* stage 1 *)
  fa_g1 : Z; fa_g2 : Z; fa_e : Z;                             (* stage 2 *)
  fa_sum : Z; fa_sgn : Z; fa_e3 : Z;                          (* stage 3 *)
  fa_frac : Z; fa_exp : Z; fa_sgn4 : Z;                       (* stage 4 *)
  fa_out : Z
}.
Definition fa_init : fa_st :=
  {| fa_d := 0; fa_f1 := 0; fa_f2 := 0; fa_e1 := 0; fa_e2 := 0; fa_g1 := 0; fa_g2 := 0; fa_e := 0;
     fa_sum := 0; fa_sgn := 0; fa_e3 := 0; fa_frac := 0; fa_exp := 0; fa_sgn4 := 0; fa_out := 0 |}.
Definition fa_latency : nat := 5.

Definition fa_step (s : fa_st) (i : fpair) : fa_st :=
  {| (* stage 1, lines 101-110: the second exponent of the difference is the raw one *)
     fa_d := strunc 6 (f_exp1 (f_a i) - f_exp (f_b i));
     fa_f1 := f_mant (f_a i); fa_f2 := f_mant (f_b i); fa_e1 := f_exp1 (f_a i); fa_e2 := f_exp1 (f_b i);
     (* stage 2, lines 121-133 *)
     fa_g1 := if fa_d s <? 0 then fa_f1 s / 2 ^ (- fa_d s) else fa_f1 s;
     fa_g2 := if fa_d s <? 0 then fa_f2 s else fa_f2 s / 2 ^ (fa_d s);
     fa_e := if fa_d s <? 0 then fa_e2 s else fa_e1 s;
     (* stage 3, lines 142-146 *)
     fa_sum := slice 0 12 (fa_g1 s + fa_g2 s);
     fa_sgn := slice 12 1 (fa_g1 s + fa_g2 s);
     fa_e3 := fa_e s;
     (* stage 4, lines 148-165 *)
     fa_frac := trunc 12 (fa_sum s * 2 ^ (trunc 4 (lead_one 12 (fa_sum s))));
     fa_exp := trunc 5 (fa_e3 s - trunc 4 (lead_one 12 (fa_sum s)) + 1);
     fa_sgn4 := fa_sgn s;
     (* stage 5, lines 167-171 *)
     fa_out := slice 1 10 (fa_frac s) + 1024 * fa_exp s + 32768 * fa_sgn4 s |}.

(** * Pixel converters *)

(** PIXF2PIXDatapath, csc/rgb16f2rgb.py:10-50. *)
Record fp_st := { fp_off : Z; fp_frac : Z; fp_pix : Z }.
Definition fp_init : fp_st := {| fp_off := 0; fp_frac := 0; fp_pix := 0 |}.
Definition fp_latency : nat := 2.
Definition fp_step (s : fp_st) (x : Z) : fp_st :=
  {| fp_off := trunc 5 (15 - slice 10 5 x - 1);
     fp_frac := slice 0 10 x + 1024;
     fp_pix := slice 3 8 (fp_frac s / 2 ^ fp_off s) |}.

(** lookup_table, csc/rgb2rgb16f.py:11-50. *)
Definition pix_lut : list Z :=
  [0; 7168; 8192; 8704; 9216; 9472; 9728; 9984; 10240; 10368; 10496; 10624; 10752; 10880; 11008; 11136;
    11264; 11328; 11392; 11456; 11520; 11584; 11648; 11712; 11776; 11840; 11904; 11968; 12032; 12096; 12160; 12224;
    12288; 12320; 12352; 12384; 12416; 12448; 12480; 12512; 12544; 12576; 12608; 12640; 12672; 12704; 12736; 12768;
    12800; 12832; 12864; 12896; 12928; 12960; 12992; 13024; 13056; 13088; 13120; 13152; 13184; 13216; 13248; 13280;
    13312; 13328; 13344; 13360; 13376; 13392; 13408; 13424; 13440; 13456; 13472; 13488; 13504; 13520; 13536; 13552;
    13568; 13584; 13600; 13616; 13632; 13648; 13664; 13680; 13696; 13712; 13728; 13744; 13760; 13776; 13792; 13808;
    13824; 13840; 13856; 13872; 13888; 13904; 13920; 13936; 13952; 13968; 13984; 14000; 14016; 14032; 14048; 14064;
    14080; 14096; 14112; 14128; 14144; 14160; 14176; 14192; 14208; 14224; 14240; 14256; 14272; 14288; 14304; 14320;
    14336; 14344; 14352; 14360; 14368; 14376; 14384; 14392; 14400; 14408; 14416; 14424; 14432; 14440; 14448; 14456;
    14464; 14472; 14480; 14488; 14496; 14504; 14512; 14520; 14528; 14536; 14544; 14552; 14560; 14568; 14576; 14584;
    14592; 14600; 14608; 14616; 14624; 14632; 14640; 14648; 14656; 14664; 14672; 14680; 14688; 14696; 14704; 14712;
    14720; 14728; 14736; 14744; 14752; 14760; 14768; 14776; 14784; 14792; 14800; 14808; 14816; 14824; 14832; 14840;
    14848; 14856; 14864; 14872; 14880; 14888; 14896; 14904; 14912; 14920; 14928; 14936; 14944; 14952; 14960; 14968;
    14976; 14984; 14992; 15000; 15008; 15016; 15024; 15032; 15040; 15048; 15056; 15064; 15072; 15080; 15088; 15096;
    15104; 15112; 15120; 15128; 15136; 15144; 15152; 15160; 15168; 15176; 15184; 15192; 15200; 15208; 15216; 15224;
    15232; 15240; 15248; 15256; 15264; 15272; 15280; 15288; 15296; 15304; 15312; 15320; 15328; 15336; 15344; 15352].
(** PIX2PIXFLUT, csc/rgb2rgb16f.py:53-78: the 256 If statements select the table entry. *)
Record lu_st := { lu_out : Z }.
Definition lu_latency : nat := 1.
Definition lu_step (s : lu_st) (p : Z) : lu_st :=
  {| lu_out := fold_left (fun acc j => if p =? Z.of_nat j then nth j pix_lut 0 else acc) (seq 0 256) (lu_out s) |}.

(** PIX2PIXFDatapath, csc/rgb2rgb16f.py:80-126. *)
Record px_st := { px_lshift : Z; px_frac : Z; px_out : Z }.
Definition px_init : px_st := {| px_lshift := 0; px_frac := 0; px_out := 0 |}.
Definition px_latency : nat := 2.
Definition px_step (s : px_st) (p : Z) : px_st :=
  {| px_lshift := trunc 4 (lead_one 12 (trunc 12 p));
     px_frac := 8 * slice 0 7 p;
     px_out := trunc 10 (px_frac s * 2 ^ px_lshift s) + 1024 * trunc 5 (15 - 1 - px_lshift s) + 32768 |}.

(** The three-component actors, csc/rgb2rgb16f.py:128-140 and csc/rgb16f2rgb.py:53-65: one datapath
    per component under a common clock enable.  PipelinedActor.__init__ is called three times; the
    three copies of the valid pipeline are identical and drive the same signals, one is modelled. *)
Definition three {S I : Type} (step : S -> I -> S) (s : S * S * S) (i : I * I * I) : S * S * S :=
  let '(a, b, c) := s in let '(x, y, z) := i in (step a x, step b y, step c z).
Definition three_out {S O : Type} (out : S -> O) (s : S * S * S) : O * O * O :=
  let '(a, b, c) := s in (out a, out b, out c).
