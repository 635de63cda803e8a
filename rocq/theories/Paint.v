(** The spectral colour mixing of the pigment blend modes: brushmodes.c 78-116,
    344-397 and 446-478 with fastapprox/fastlog.h, fastexp.h and fastpow.h, bit
    exact.  This is the [mix] that Blend.v leaves open. *)
From Verif Require Import Base F32 Arith Color Spectral Blend.
From Flocq Require Import IEEE754.BinarySingleNaN Core.Zaux.
Local Open Scope Z_scope.

(** A float as the 32 bits of its memory and back (the unions of fastlog.h and
    fastexp.h).  Simplification: every NaN is the default one. *)
Definition sign_bit (s : bool) : Z := if s then 2147483648 else 0.
Definition bits_of (x : f32) : Z :=
  match x with
  | B754_zero s => sign_bit s
  | B754_infinity s => sign_bit s + 2139095040
  | B754_nan => 2143289344
  | B754_finite s m e _ =>
      sign_bit s + (if Zpos m <? 8388608 then Zpos m else (e + 150) * 8388608 + (Zpos m - 8388608))
  end.
Definition of_bits (i : Z) : f32 :=
  let s := 2147483648 <=? i in
  let e := (i / 8388608) mod 256 in
  let m := i mod 8388608 in
  if e =? 255 then (if m =? 0 then B754_infinity s else B754_nan)
  else
    binary_normalize 24 128 prec24 emax24 mode_NE
      (cond_Zopp s (if e =? 0 then m else m + 8388608)) ((if e =? 0 then 1 else e) - 150) s.

(** a float literal n/d with more than 24 bits *)
Definition flong (n d : Z) : f32 := f_of_d (dlit n d).

(* fastlog2, fastlog.h 47-58; the masked bits have the exponent of 0.5.
   1.1920928955078125e-7f is 2^-23. *)
Definition fastlog2 (x : f32) : f32 :=
  let i := bits_of x in
  let mx := of_bits (i mod 8388608 + 1056964608) in
  let y := fmul (f_of_Z i) (flit 1 8388608) in
  fsub (fsub (fsub y (flong 12422551499 100000000))
             (fmul (flong 1498030302 1000000000) mx))
       (fdiv (flong 172587999 100000000) (fadd (flong 3520887068 10000000000) mx)).

(* fastpow2, fastexp.h 51-61; the conversions to int and to uint32_t are
   undefined out of range *)
Definition fastpow2 (p : f32) : outcome f32 :=
  let offset := if flt p (f_of_Z 0) then f1 else f_of_Z 0 in
  let clipp := if flt p (f_of_Z (-126)) then f_of_Z (-126) else p in
  let* w := f_to_int clipp in
  let z := fadd (fsub clipp (f_of_Z w)) offset in
  let* i := f_to_u32 (fmul (f_of_Z 8388608)
              (fsub (fadd (fadd clipp (flong 1212740575 10000000))
                          (fdiv (flong 277280233 10000000) (fsub (flong 484252568 100000000) z)))
                    (fmul (flong 149012907 100000000) z))) in
  Ok (of_bits i).

(* fastpow, fastpow.h 50-55 *)
Definition fastpow (x p : f32) : outcome f32 := fastpow2 (fmul p (fastlog2 x)).

(** the ten bands one after the other *)
Fixpoint mix_bands (l : list (f32 * f32)) (fac_a fac_b : f32) : outcome (list f32) :=
  match l with
  | [] => Ok []
  | (a, b) :: l =>
      let* x := fastpow a fac_a in
      let* y := fastpow b fac_b in
      let* r := mix_bands l fac_a fac_b in
      Ok (fmul x y :: r)
  end.

(* The brush colour [col] mixed into the straightened colour of the pixel:
   brushmodes.c 78-79 and 101-117 (normal), 344-350 and 375-397 (eraser), 446-447
   and 463-478 (lock alpha; its [opa_a] has been scaled with the alpha of the
   pixel).  Only the eraser multiplies [fac_a] by (float)color_a/(1<<15) (386);
   for the others [color_a] is 1<<15 here, and multiplying by 1 changes nothing. *)
Definition spectral_mix (col : rgb) (p : pixel) (opa_a opa_b color_a : Z) : outcome (f32 * f32 * f32) :=
  let straight c := fdiv (f_of_Z c) (f_of_Z ONE) in
  let spectral_a := rgb_to_spectral mix64 (straight (cr col)) (straight (cg col)) (straight (cb col)) in
  let fac_a := fmul (fdiv (f_of_Z opa_a) (f_of_Z (u32 (opa_a + u32 (opa_b * pa p) / ONE))))
                    (fdiv (f_of_Z color_a) (f_of_Z ONE)) in
  let fac_b := f_of_d (dsub (d_of_Z 1) (d_of_f fac_a)) in
  let unpremult c := fdiv (f_of_Z c) (f_of_Z (pa p)) in
  let spectral_b := rgb_to_spectral mix64 (unpremult (pr p)) (unpremult (pg p)) (unpremult (pb p)) in
  let* spectral_result := mix_bands (combine spectral_a spectral_b) fac_a fac_b in
  Ok (spectral_to_rgb mix64 spectral_result).

(** The mixing as the [mix] of Blend.v.  Where it is undefined it gives NaN; all
    three blend modes convert the result to an integer, which is undefined for
    NaN (PaintProofs.v, [undefined_normal] etc.). *)
Definition paint_mix : mix_oracle := fun col p opa_a opa_b color_a =>
  match spectral_mix col p opa_a opa_b color_a with
  | Ok v => v
  | _ => (B754_nan, B754_nan, B754_nan)
  end.
