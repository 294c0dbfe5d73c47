(** Model of the colour space converters for every choice of their three parameters.
    /repo/litevideo/csc/{common,rgb2ycbcr,ycbcr2rgb}.py with rgb_w = [rw], ycbcr_w = [yw], coef_w = [cw].
    CscModel.v is the case rw = yw, cw = 8 (CscWProps.v shows that they agree).
    Python floats are IEEE binary64: the standard library's Coq.Floats.SpecFloat (pure Gallina, no axioms). *)
From Coq Require Import ZArith List Bool.
From Coq Require Import Floats.SpecFloat.
From Verif Require Import Hdl PipeModel CscModel.
Import ListNotations.
Open Scope Z_scope.

(** * The coefficients *)
(** A Python integer or decimal literal n/10^k as a float: the nearest binary64 number. *)
Definition f_int (n : Z) : spec_float := binary_normalize 53 1024 n 0 false.
Definition f_div := SFdiv 53 1024.
Definition f_mul := SFmul 53 1024.
Definition f_sub := SFsub 53 1024.
Definition f_dec4 (n : Z) : spec_float := f_div (f_int n) (f_int 10000).
(** csc/rgb2ycbcr.py:12-15 and csc/ycbcr2rgb.py:10-13. *)
Definition f_ca := f_dec4 1819.
Definition f_cb := f_dec4 618.
Definition f_cc := f_dec4 5512.
Definition f_cd := f_dec4 6495.
(** csc/ycbcr2rgb.py:26-29: 1/cd, -cb/(cc*(1-ca-cb)), -ca/(cd*(1-ca-cb)), 1/cc. *)
Definition f_rest := f_sub (f_sub (f_int 1) f_ca) f_cb.
Definition f_a := f_div (f_int 1) f_cd.
Definition f_b := f_div (SFopp f_cb) (f_mul f_cc f_rest).
Definition f_c := f_div (SFopp f_ca) (f_mul f_cd f_rest).
Definition f_d := f_div (f_int 1) f_cc.
(** Python's int(x): towards zero (an infinity or NaN raises an exception; here 0). *)
Definition f_to_int (x : spec_float) : Z :=
  match x with
  | S754_finite s m e => (if s then -1 else 1) * (if 0 <=? e then Zpos m * 2 ^ e else Zpos m / 2 ^ (- e))
  | _ => 0
  end.
(** csc/common.py:18-19: int(value * 2**cw).  The product with a power of two is exact, so it is written on the
    exponent; [coef_float] is the literal reading and CscWCoef.v checks that the two agree for every cw up to 1000
    (Python's conversion of 2**cw to a float fails from 1024 on). *)
Definition coef (v : spec_float) (cw : Z) : Z :=
  match v with S754_finite s m e => f_to_int (S754_finite s m (e + cw)) | _ => 0 end.
Definition coef_float (v : spec_float) (cw : Z) : Z := f_to_int (f_mul v (f_int (2 ^ cw))).

(** * csc/rgb2ycbcr.py:25-126; the registers are those of [ry_st]. *)
(** The coefficients are parameters of the step so that they are computed once; [ryw_step] below gives them. *)
Record ry_coefs := { k1_ca : Z; k1_cb : Z; k1_cc : Z; k1_cd : Z }.
(** csc/rgb2ycbcr.py:10-16. *)
Definition ry_coefs_of (cw : Z) : ry_coefs :=
  {| k1_ca := coef f_ca cw; k1_cb := coef f_cb cw; k1_cc := coef f_cc cw; k1_cd := coef f_cd cw |}.
(** rgb2ycbcr.py:37-126.  The offsets and limits are those of the output width (rgb2ycbcr.py:17-22,34). *)
Definition ryk_step (rw yw cw : Z) (k : ry_coefs) (s : ry_st) (i : rgb) : ry_st :=
  {| ry_d1 := i; ry_d2 := ry_d1 s; ry_d3 := ry_d2 s; ry_d4 := ry_d3 s;
     ry_rg := strunc (rw + 1) (c_r i - c_g i);
     ry_bg := strunc (rw + 1) (c_b i - c_g i);
     ry_carg := strunc (rw + cw + 1) (ry_rg s * k1_ca k);
     ry_cbbg := strunc (rw + cw + 1) (ry_bg s * k1_cb k);
     ry_sum := strunc (rw + cw + 9) (ry_carg s + ry_cbbg s);
     ry_yraw := strunc (rw + 3) (slice cw (rw + 9) (ry_sum s) + c_g (ry_d3 s));
     ry_by := strunc (rw + 4) (c_b (ry_d4 s) - ry_yraw s);
     ry_ry := strunc (rw + 4) (c_r (ry_d4 s) - ry_yraw s);
     ry_yraw0 := strunc (rw + 3) (ry_yraw s);
     ry_ccm := strunc (rw + cw + 4) (ry_by s * k1_cc k);
     ry_cdm := strunc (rw + cw + 4) (ry_ry s * k1_cd k);
     ry_yraw1 := strunc (rw + 3) (ry_yraw0 s);
     ry_y := strunc (rw + 3) (ry_yraw1 s + yoffset yw);
     ry_cb := strunc (rw + 4) (slice cw (rw + 4) (ry_ccm s) + coffset yw);
     ry_cr := strunc (rw + 4) (slice cw (rw + 4) (ry_cdm s) + coffset yw);
     ry_out := {| c_y := saturate yw (ry_y s) 0 (2 ^ yw - 1);
                  c_cb := saturate yw (ry_cb s) 0 (2 ^ yw - 1);
                  c_cr := saturate yw (ry_cr s) 0 (2 ^ yw - 1) |} |}.
Definition ryw_step (rw yw cw : Z) : ry_st -> rgb -> ry_st := ryk_step rw yw cw (ry_coefs_of cw).

(** * csc/ycbcr2rgb.py:32-104; the registers are those of [yr_st]. *)
Record yr_coefs := { k2_a : Z; k2_b : Z; k2_c : Z; k2_d : Z }.
(** csc/ycbcr2rgb.py:14,26-29: cw - 2 fractional bits. *)
Definition yr_coefs_of (cw : Z) : yr_coefs :=
  {| k2_a := coef f_a (cw - 2); k2_b := coef f_b (cw - 2); k2_c := coef f_c (cw - 2); k2_d := coef f_d (cw - 2) |}.
(** ycbcr2rgb.py:44-104; slice [coef_w-2:] of a signal of yw + cw + 4 bits. *)
Definition yrk_step (yw rw cw : Z) (k : yr_coefs) (s : yr_st) (i : ycc) : yr_st :=
  {| yr_d1 := i;
     yr_cbm := strunc (yw + 1) (c_cb i - coffset rw);
     yr_crm := strunc (yw + 1) (c_cr i - coffset rw);
     yr_ym := strunc (yw + 1) (c_y (yr_d1 s) - yoffset rw);
     yr_cra := strunc (yw + cw + 4) (yr_crm s * k2_a k);
     yr_cbb := strunc (yw + cw + 4) (yr_cbm s * k2_b k);
     yr_crc := strunc (yw + cw + 4) (yr_crm s * k2_c k);
     yr_cbd := strunc (yw + cw + 4) (yr_cbm s * k2_d k);
     yr_r := strunc (yw + 4) (yr_ym s + slice (cw - 2) (yw + 6) (yr_cra s));
     yr_g := strunc (yw + 4) (yr_ym s + slice (cw - 2) (yw + 6) (yr_cbb s) + slice (cw - 2) (yw + 6) (yr_crc s));
     yr_b := strunc (yw + 4) (yr_ym s + slice (cw - 2) (yw + 6) (yr_cbd s));
     yr_out := {| c_r := saturate rw (yr_r s) 0 (2 ^ rw - 1);
                  c_g := saturate rw (yr_g s) 0 (2 ^ rw - 1);
                  c_b := saturate rw (yr_b s) 0 (2 ^ rw - 1) |} |}.
Definition yrw_step (yw rw cw : Z) : yr_st -> ycc -> yr_st := yrk_step yw rw cw (yr_coefs_of cw).
