(** C [float] and [double] arithmetic, bit exact through Flocq: binary32 and
    binary64, round to nearest even, one NaN.  This matches a compiler with
    [FLT_EVAL_METHOD = 0] and no contraction (the build files set no
    -ffast-math; x86-64 without FMA). *)
From Verif Require Import Base.
From Flocq Require Import IEEE754.BinarySingleNaN Core.Zaux.

Lemma prec24 : FLX.Prec_gt_0 24. Proof. reflexivity. Qed.
Lemma prec53 : FLX.Prec_gt_0 53. Proof. reflexivity. Qed.
Lemma emax24 : Prec_lt_emax 24 128. Proof. reflexivity. Qed.
Lemma emax53 : Prec_lt_emax 53 1024. Proof. reflexivity. Qed.
#[global] Existing Instance prec24.
#[global] Existing Instance prec53.
#[global] Existing Instance emax24.
#[global] Existing Instance emax53.

Notation f32 := (binary_float 24 128).
Notation f64 := (binary_float 53 1024).

Definition fadd : f32 -> f32 -> f32 := Bplus mode_NE.
Definition fsub : f32 -> f32 -> f32 := Bminus mode_NE.
Definition fmul : f32 -> f32 -> f32 := Bmult mode_NE.
Definition fdiv : f32 -> f32 -> f32 := Bdiv mode_NE.
Definition fopp : f32 -> f32 := Bopp.
Definition fabs : f32 -> f32 := Babs.
Definition fsqrt : f32 -> f32 := Bsqrt mode_NE.
Definition dadd : f64 -> f64 -> f64 := Bplus mode_NE.
Definition dsub : f64 -> f64 -> f64 := Bminus mode_NE.
Definition dmul : f64 -> f64 -> f64 := Bmult mode_NE.
Definition ddiv : f64 -> f64 -> f64 := Bdiv mode_NE.
Definition dopp : f64 -> f64 := Bopp.

(** Comparisons: false when an operand is NaN. *)
Definition flt : f32 -> f32 -> bool := Bltb.
Definition fle : f32 -> f32 -> bool := Bleb.
Definition feq : f32 -> f32 -> bool := Beqb.
Definition dlt : f64 -> f64 -> bool := Bltb.
Definition dle : f64 -> f64 -> bool := Bleb.
Definition deq : f64 -> f64 -> bool := Beqb.

(** Conversions from integers. *)
Definition f_of_Z (z : Z) : f32 := binary_normalize 24 128 prec24 emax24 mode_NE z 0 false.
Definition d_of_Z (z : Z) : f64 := binary_normalize 53 1024 prec53 emax53 mode_NE z 0 false.

(** [float] to [double] (exact) and back (rounds). *)
Definition d_of_f (x : f32) : f64 :=
  match x with
  | B754_zero s => B754_zero s
  | B754_infinity s => B754_infinity s
  | B754_nan => B754_nan
  | B754_finite s m e _ => binary_normalize 53 1024 prec53 emax53 mode_NE (cond_Zopp s (Zpos m)) e s
  end.
Definition f_of_d (x : f64) : f32 :=
  match x with
  | B754_zero s => B754_zero s
  | B754_infinity s => B754_infinity s
  | B754_nan => B754_nan
  | B754_finite s m e _ => binary_normalize 24 128 prec24 emax24 mode_NE (cond_Zopp s (Zpos m)) e s
  end.

(** A decimal literal [n / d] ([n], [d] exactly representable): the correctly
    rounded quotient. *)
Definition dlit (n d : Z) : f64 := ddiv (d_of_Z n) (d_of_Z d).
Definition flit (n d : Z) : f32 := fdiv (f_of_Z n) (f_of_Z d).

(** Float to integer conversion truncates; out of range (and NaN) is undefined. *)
Definition f_to_Z (lo hi : Z) (x : f32) : outcome Z :=
  if is_finite x then
    let t := Btrunc x in if (lo <=? t) && (t <=? hi) then Ok t else UB
  else UB.
Definition d_to_Z (lo hi : Z) (x : f64) : outcome Z :=
  if is_finite x then
    let t := Btrunc x in if (lo <=? t) && (t <=? hi) then Ok t else UB
  else UB.
Definition f_to_u16 := f_to_Z 0 65535.
Definition f_to_int := f_to_Z INT_MIN INT_MAX.
Definition d_to_u16 := d_to_Z 0 65535.
Definition d_to_int := d_to_Z INT_MIN INT_MAX.
Definition f_to_u32 := f_to_Z 0 4294967295.
Definition d_to_u32 := d_to_Z 0 4294967295.

(** [floor] of a double, as an integer value. *)
Definition dfloor_Z (x : f64) : option Z :=
  match x with
  | B754_zero _ => Some 0
  | B754_finite s m e _ =>
      let n := cond_Zopp s (Zpos m) in
      Some (if 0 <=? e then n * 2 ^ e else n / 2 ^ (- e))
  | _ => None
  end.

(** [(int) floor(x)] *)
Definition d_floor_int (x : f64) : outcome Z :=
  match dfloor_Z x with
  | Some z => int_val z
  | None => UB
  end.

(** [CLAMP(x, low, high)] of helpers.h 12, comparing in double as the C code
    does when the bounds are double literals. *)
Definition clampf (x lo hi : f32) : f32 := if flt hi x then hi else if flt x lo then lo else x.

Definition f0 : f32 := B754_zero false.
Definition f1 : f32 := f_of_Z 1.
