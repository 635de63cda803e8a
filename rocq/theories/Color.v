(** helpers.c: angle helpers and the conversions between RGB, HSV, HSL and HCY.

    The code mixes C floats and doubles.  It is written once over a pair of
    arithmetics: [mix64] is the code, bit for bit, [mixR] the same computation
    in exact real arithmetic. *)
From Verif Require Import Base F32 Arith.
From Coq Require Import Reals.
From Flocq Require Import Core.Raux IEEE754.BinarySingleNaN.
Local Open Scope Z_scope.

Record mixed := mkMixed {
  sng : arith;                       (* float *)
  dbl : arith;                       (* double *)
  wid : sng -> dbl;                  (* conversion float -> double *)
  nar : dbl -> sng;                  (* conversion double -> float *)
  dec : Z -> Z -> dbl;               (* the double literal n/d *)
  flo : dbl -> dbl;                  (* floor *)
  fmod1 : dbl -> dbl;                (* fmod(x, 1.0) *)
  to_i : dbl -> outcome Z            (* (int) x *)
}.
Arguments wid {m}. Arguments nar {m}. Arguments dec {m}. Arguments flo {m}. Arguments fmod1 {m}. Arguments to_i {m}.

(** C [floor] on doubles (infinities, NaN and zeros are returned unchanged) *)
Definition dfloor (x : f64) : f64 :=
  match x with B754_finite _ _ _ _ => match dfloor_Z x with Some z => d_of_Z z | None => x end | _ => x end.
(** C [fmod(x, 1.0)]: x minus its integer part, exactly *)
Definition dfmod1 (x : f64) : f64 :=
  match x with B754_finite _ _ _ _ => dsub x (d_of_Z (Btrunc x)) | B754_zero s => x | _ => B754_nan end.

Definition mix64 : mixed := mkMixed num32 num64 d_of_f f_of_d dlit dfloor dfmod1 d_to_int.
Definition mixR : mixed :=
  mkMixed numR numR (fun x => x) (fun x => x) (fun n d => IZR n / IZR d)%R (fun x => IZR (Zfloor x))
    (fun x => x - IZR (Ztrunc x))%R (fun x => int_val (Ztrunc x)).

Section Color.
  Context (M : mixed).
  Notation S := (sng M).
  Notation D := (dbl M).
  Notation d z := (@nofZ (dbl M) z).
  Notation s z := (@nofZ (sng M) z).
  Notation W := (@wid M).
  Notation N := (@nar M).
  Notation wd := (fun f (x : sng M) (y : dbl M) => f (W x) y).

  (* helpers.h 7-8, 12-14 on floats; the bounds of CLAMP are doubles or floats,
     0 and 1, which makes no difference *)
  Definition cmax (a b : S) : S := if nlt b a then a else b.
  Definition cmin (a b : S) : S := if nlt a b then a else b.
  Definition clamp01 (x : S) : S := if nlt (s 1) x then s 1 else if nlt x (s 0) then s 0 else x.
  Definition cmax3 (a b c : S) : S := if nlt b a then cmax a c else cmax b c.
  Definition cmin3 (a b c : S) : S := if nlt a b then cmin a c else cmin b c.

  (* mod_arith, 75-79: a / N is a float, the rest is computed in double *)
  Definition mod_arith (a n : S) : S :=
    N (nsub (W a) (nmul (W n) (flo (W (ndiv a n))))).
  (* smallest_angular_difference, 82-89 *)
  Definition smallest_angular_difference (angleA angleB : S) : S :=
    let a := nsub angleB angleA in
    let a := nsub (mod_arith (nadd a (s 180)) (s 360)) (s 180) in
    nadd a (if nlt (s 180) a then s (-360) else if nlt a (s (-180)) then s 360 else s 0).

  (** colours are triples *)
  Definition color : Type := (S * S * S)%type.

  (* rgb_to_hsv_float, 93-146 *)
  Definition rgb_to_hsv (c : color) : color :=
    let '(r, g, b) := c in
    let r := clamp01 r in
    let g := clamp01 g in
    let b := clamp01 b in
    let max := cmax3 r g b in
    let min := cmin3 r g b in
    let delta := nsub max min in
    if nlt (dec 1 10000) (W delta) then
      let h :=
        if neqb r max then
          let h := ndiv (nsub g b) delta in
          if nlt (W h) (d 0) then N (nadd (W h) (d 6)) else h
        else if neqb g max then N (nadd (d 2) (W (ndiv (nsub b r) delta)))
        else if neqb b max then N (nadd (d 4) (W (ndiv (nsub r g) delta)))
        else s 0 in
      (N (ndiv (W h) (d 6)), ndiv delta max, max)
    else (s 0, s 0, max).

  (* hsv_to_rgb_float, 149-227 *)
  Definition hsv_to_rgb (c : color) : outcome color :=
    let '(h, sa, v) := c in
    let h := N (nsub (W h) (flo (W h))) in
    let sa := clamp01 sa in
    let v := clamp01 v in
    if neqb sa (s 0) then Ok (v, v, v)
    else
      let hue := W h in
      let hue := if neqb hue (d 1) then d 0 else hue in
      let hue := nmul hue (d 6) in
      let* i := to_i hue in
      let f := nsub hue (d i) in
      let w := N (nmul (W v) (nsub (d 1) (W sa))) in
      let q := N (nmul (W v) (nsub (d 1) (nmul (W sa) f))) in
      let t := N (nmul (W v) (nsub (d 1) (nmul (W sa) (nsub (d 1) f)))) in
      Ok (match i with
          | 0 => (v, t, w)
          | 1 => (q, v, w)
          | 2 => (w, v, t)
          | 3 => (w, q, v)
          | 4 => (t, w, v)
          | 5 => (v, w, q)
          | _ => (s 0, s 0, s 0)
          end).

  (* rgb_to_hsl_float, 230-293; max, min and delta are doubles *)
  Definition rgb_to_hsl (c : color) : color :=
    let '(r, g, b) := c in
    let r := clamp01 r in
    let g := clamp01 g in
    let b := clamp01 b in
    let max := W (cmax3 r g b) in
    let min := W (cmin3 r g b) in
    let l := N (ndiv (nadd max min) (d 2)) in
    if neqb max min then (s 0, s 0, l)
    else
      let sa := N (if nle (W l) (dec 1 2) then ndiv (nsub max min) (nadd max min)
                   else ndiv (nsub max min) (nsub (nsub (d 2) max) min)) in
      let delta := nsub max min in
      let delta := if neqb delta (d 0) then d 1 else delta in
      let h :=
        if neqb (W r) max then N (ndiv (W (nsub g b)) delta)
        else if neqb (W g) max then N (nadd (d 2) (ndiv (W (nsub b r)) delta))
        else if neqb (W b) max then N (nadd (d 4) (ndiv (W (nsub r g)) delta))
        else s 0 in
      let h := N (ndiv (W h) (d 6)) in
      let h := if nlt (W h) (d 0) then N (nadd (W h) (d 1)) else h in
      (h, sa, l).

  (* hsl_value, 295-318 *)
  Definition hsl_value (n1 n2 hue : D) : D :=
    let hue := if nlt (d 6) hue then nsub hue (d 6) else if nlt hue (d 0) then nadd hue (d 6) else hue in
    if nlt hue (d 1) then nadd n1 (nmul (nsub n2 n1) hue)
    else if nlt hue (d 3) then n2
    else if nlt hue (d 4) then nadd n1 (nmul (nsub n2 n1) (nsub (d 4) hue))
    else n1.

  (* hsl_to_rgb_float, 327-367; l + s - l * s is computed in float *)
  Definition hsl_to_rgb (c : color) : color :=
    let '(h, sa, l) := c in
    let h := N (nsub (W h) (flo (W h))) in
    let sa := clamp01 sa in
    let l := clamp01 l in
    if neqb sa (s 0) then (l, l, l)
    else
      let m2 := if nle (W l) (dec 1 2) then nmul (W l) (nadd (d 1) (W sa))
                else W (nsub (nadd l sa) (nmul l sa)) in
      let m1 := nsub (nmul (d 2) (W l)) m2 in
      let h6 := nmul (W h) (d 6) in
      (N (hsl_value m1 m2 (nadd h6 (d 2))), N (hsl_value m1 m2 h6), N (hsl_value m1 m2 (nsub h6 (d 2)))).

  (* 372-374, 424-426: the weights of the luma, rounded to float *)
  Definition HCY_RED : S := N (dec 2162 10000).
  Definition HCY_GREEN : S := N (dec 7152 10000).
  Definition HCY_BLUE : S := N (dec 722 10000).

  (* rgb_to_hcy_float, 369-419 *)
  Definition rgb_to_hcy (c : color) : color :=
    let '(r, g, b) := c in
    let y := nadd (nadd (nmul HCY_RED r) (nmul HCY_GREEN g)) (nmul HCY_BLUE b) in
    let p := cmax3 r g b in
    let n := cmin3 r g b in
    let dd := nsub p n in
    let h :=
      if neqb n p then s 0
      else if neqb p r then
        let h := ndiv (nsub g b) dd in
        if nlt h (s 0) then N (nadd (W h) (d 6)) else h
      else if neqb p g then N (nadd (W (ndiv (nsub b r) dd)) (d 2))
      else N (nadd (W (ndiv (nsub r g) dd)) (d 4)) in
    let h := N (ndiv (W h) (d 6)) in
    let h := N (fmod1 (W h)) in
    let c := if neqb r g && neqb g b then s 0
             else cmax (ndiv (nsub y n) y) (ndiv (nsub p y) (nsub (s 1) y)) in
    (h, c, y).

  (* hcy_to_rgb_float, 421-517; the assignments of the achromatic case (440-445)
     are overwritten below *)
  Definition hcy_to_rgb (c : color) : color :=
    let '(h, c, y) := c in
    let h := N (nsub (W h) (flo (W h))) in
    let c := clamp01 c in
    let y := clamp01 y in
    let h := N (fmod1 (W h)) in
    let h := N (nmul (W h) (d 6)) in
    let '(th, tm) :=
      if nlt h (s 1) then (h, nadd HCY_RED (nmul HCY_GREEN h))
      else if nlt h (s 2) then let th := N (nsub (d 2) (W h)) in (th, nadd HCY_GREEN (nmul HCY_RED th))
      else if nlt h (s 3) then let th := N (nsub (W h) (d 2)) in (th, nadd HCY_GREEN (nmul HCY_BLUE th))
      else if nlt h (s 4) then let th := N (nsub (d 4) (W h)) in (th, nadd HCY_BLUE (nmul HCY_GREEN th))
      else if nlt h (s 5) then let th := N (nsub (W h) (d 4)) in (th, nadd HCY_BLUE (nmul HCY_RED th))
      else let th := N (nsub (d 6) (W h)) in (th, nadd HCY_RED (nmul HCY_BLUE th)) in
    let '(p, o, n) :=
      if nle y tm then
        (nadd y (ndiv (nmul (nmul y c) (nsub (s 1) tm)) tm),
         nadd y (ndiv (nmul (nmul y c) (nsub th tm)) tm),
         nsub y (nmul y c))
      else
        (nadd y (nmul (nsub (s 1) y) c),
         nadd y (ndiv (nmul (nmul (nsub (s 1) y) c) (nsub th tm)) (nsub (s 1) tm)),
         nsub y (ndiv (nmul (nmul (nsub (s 1) y) c) tm) (nsub (s 1) tm))) in
    if nlt h (s 1) then (p, o, n)
    else if nlt h (s 2) then (o, p, n)
    else if nlt h (s 3) then (n, p, o)
    else if nlt h (s 4) then (n, o, p)
    else if nlt h (s 5) then (o, n, p)
    else (p, n, o).
End Color.
