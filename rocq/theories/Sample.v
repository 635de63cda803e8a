(** Reading a colour back from the canvas: get_color of mypaint-tiled-surface.c
    (803-926) and the two accumulators of brushmodes.c (491-624), bit exact in
    [float] and [double].

    Parameters: [trig] (cosine and sine), [mix] (the blend modes of dabs that are
    still queued), [fastpow] (fastapprox/fastpow.h), [rand] (the values the C
    library's rand() returns, one after the other).  Tiles are summed up under
    "omp critical" in any order; [order] picks one. *)
From Verif Require Import Base F32 Arith Color Spectral Blend Queue Plumb Mask Dab.
From Flocq Require Import IEEE754.BinarySingleNaN.
Local Open Scope Z_scope.

(** the five float variables of get_color, 818-819 *)
Record sums := mkSums { s_w : f32; s_r : f32; s_g : f32; s_b : f32; s_a : f32 }.

(** the five uint32_t variables of get_color_pixels_legacy, 505-509 *)
Record isums := mkISums { i_w : Z; i_r : Z; i_g : Z; i_b : Z; i_a : Z }.

(* brushmodes.c 512-520: one pixel *)
Definition legacy_px (mem : list Z) (s : isums) (q opa : Z) : outcome isums :=
  let* p := read_px mem q in
  let add acc c := u32 (acc + u32 (opa * c) / ONE) in
  Ok (mkISums (u32 (i_w s + opa)) (add (i_r s) (pr p)) (add (i_g s) (pg p)) (add (i_b s) (pb p)) (add (i_a s) (pa p))).

(* get_color_pixels_legacy, brushmodes.c 491-532 *)
Definition get_color_pixels_legacy (mask mem : list Z) (s : sums) : outcome sums :=
  let* i := mask_loop (legacy_px mem) mask 0 (mkISums 0 0 0 0 0) in
  Ok (mkSums (fadd (s_w s) (f_of_Z (i_w i))) (fadd (s_r s) (f_of_Z (i_r i))) (fadd (s_g s) (f_of_Z (i_g i)))
             (fadd (s_b s) (f_of_Z (i_b i))) (fadd (s_a s) (f_of_Z (i_a i)))).

Definition RAND_MAX : Z := 2147483647.   (* stdlib.h (glibc) *)

Section Sample.
  Variables (trig : trig_oracle) (mix : mix_oracle) (fastpow : f32 -> f32 -> f32) (rand : nat -> Z).

  (** the local variables of get_color_pixels_accumulate, 572-580; [ac_next]:
      how many values rand() has delivered so far *)
  Record acc := mkAcc { ac_w : f32; ac_a : f32; ac_spec : list f32; ac_rgb : f32 * f32 * f32; ac_count : Z; ac_next : nat }.

  (* 588-611: one sampled pixel with mask value [m] *)
  Definition take (paint : f32) (m : Z) (p : pixel) (s : acc) : acc :=
    let a := fdiv (fmul (f_of_Z m) (f_of_Z (pa p))) (f_of_Z 1073741824) in
    let alpha_sums := fadd a (ac_a s) in
    let w := fadd (ac_w s) (fdiv (f_of_Z m) (f_of_Z 32768)) in
    let '(fac_a, fac_b) :=
      if flt f0 alpha_sums then
        let fac_a := fdiv a alpha_sums in
        (fac_a, f_of_d (dsub (d_of_Z 1) (d_of_f fac_a)))
      else (f1, f1) in
    let part c := fdiv (f_of_Z c) (f_of_Z (pa p)) in
    let spec :=
      if flt f0 paint && (0 <? pa p) then
        map (fun q => fmul (fastpow (fst q) fac_a) (fastpow (snd q) fac_b))
            (combine (rgb_to_spectral mix64 (part (pr p)) (part (pg p)) (part (pb p)) : list f32) (ac_spec s))
      else ac_spec s in
    let '(ar, ag, ab) := ac_rgb s in
    let avg c old := fadd (fdiv (fmul (f_of_Z c) fac_a) (f_of_Z (pa p))) (fmul old fac_b) in
    let rgb := if flt paint f1 && (0 <? pa p) then (avg (pr p) ar, avg (pg p) ag, avg (pb p) ab) else (ar, ag, ab) in
    mkAcc w (fadd (ac_a s) a) spec rgb (ac_count s) (ac_next s).

  (* 583-613: one pixel; the remainder by zero is undefined *)
  Definition acc_px (paint : f32) (interval threshold : Z) (mem : list Z) (s : acc) (q m : Z) : outcome acc :=
    let* p := read_px mem q in
    let '(hit, next) :=
      if ac_count s =? 0 then (true, ac_next s) else (rand (ac_next s) <? threshold, S (ac_next s)) in
    let s := if hit then take paint m p s else s in
    if interval =? 0 then UB
    else Ok (mkAcc (ac_w s) (ac_a s) (ac_spec s) (ac_rgb s) (u16 ((ac_count s + 1) mod interval)) next).

  (* get_color_pixels_accumulate, brushmodes.c 546-624.  The sample interval
     arrives as a uint16_t. *)
  Definition get_color_pixels_accumulate (mask mem : list Z) (paint : f32) (interval : Z) (rate : f32)
      (s : sums) (next : nat) : outcome (sums * nat) :=
    if flt paint f0 then
      let* s := get_color_pixels_legacy mask mem s in Ok (s, next)
    else
      let interval := u16 interval in
      let spec : list f32 := if flt f0 paint then rgb_to_spectral mix64 (s_r s) (s_g s) (s_b s) else repeat f0 10 in
      let* threshold := f_to_int (fmul rate (f_of_Z RAND_MAX)) in
      let* t := mask_loop (acc_px paint interval threshold mem) mask 0
                          (mkAcc (s_w s) (s_a s) spec (s_r s, s_g s, s_b s) 0 next) in
      let '(sr, sg, sb) := (spectral_to_rgb mix64 (ac_spec t) : f32 * f32 * f32) in
      let '(ar, ag, ab) := ac_rgb t in
      let join sp av := f_of_d (dadd (d_of_f (fmul sp paint)) (dmul (dsub (d_of_Z 1) (d_of_f paint)) (d_of_f av))) in
      Ok (mkSums (ac_w t) (join sr ar) (join sg ag) (join sb ab) (ac_a t), ac_next t).

  (* get_color, 828-833: the tiles visited, row by row *)
  Definition sample_rows (x y radius : f32) : outcome (list (list tile)) :=
    let r_fringe := fadd radius f1 in
    let* tx1 := tile_coord (fsub x r_fringe) in
    let* tx2 := tile_coord (fadd x r_fringe) in
    let* ty1 := tile_coord (fsub y r_fringe) in
    let* ty2 := tile_coord (fadd y r_fringe) in
    Ok (map (fun ty => map (fun tx => (tx, ty)) (zrange tx1 (Z.to_nat (tx2 - tx1 + 1))))
            (zrange ty1 (Z.to_nat (ty2 - ty1 + 1)))).

  (* 854-855 *)
  Definition sample_interval (radius : f32) : outcome Z :=
    if fle radius (f_of_Z 2) then Ok 1 else f_to_int (fmul radius (f_of_Z 7)).
  Definition sample_rate (radius : f32) : f32 := fdiv f1 (fmul (f_of_Z 7) radius).

  (* 877-884: the mask of the sampled area in tile [t] *)
  Definition sample_mask (x y radius : f32) (t : tile) : outcome (list Z) :=
    let* ox := int_val (fst t * TILE) in
    let* oy := int_val (snd t * TILE) in
    render_dab_mask trig (fsub x (f_of_Z ox)) (fsub y (f_of_Z oy)) radius fhalf fhalf f1 f0.

  (* 874-893: one tile *)
  Definition sample_tile (x y radius paint : f32) (interval : Z) (rate : f32)
      (st : sums * nat) (tm : tile * list Z) : outcome (sums * nat) :=
    let* mask := sample_mask x y radius (fst tm) in
    get_color_pixels_accumulate mask (snd tm) paint interval rate (fst st) (snd st).

  (* 899-925: (r, g, b, a) *)
  Definition finish (paint : f32) (s : sums) : outcome (f32 * f32 * f32 * f32) :=
    if flt f0 (s_w s) then
      let a := fdiv (s_a s) (s_w s) in
      let legacy := flt paint f0 in
      let per c := if legacy then fdiv c (s_w s) else c in
      let demul := if legacy then a else f1 in
      let out c := clampf (fdiv (per c) demul) f0 f1 in
      let alpha := clampf a f0 f1 in
      if flt f0 a then Ok (out (s_r s), out (s_g s), out (s_b s), alpha)
      else Ok (f0, f1, f0, alpha)
    else Abort.

  (* 813: the radius used *)
  Definition sample_radius (radius : f32) : f32 := if flt radius f1 then f1 else radius.

  (* 828-925 on the tiles that could be read, in the order they are summed up *)
  Definition sample_seen (seen : list (tile * list Z)) (x y radius paint : f32) : outcome (f32 * f32 * f32 * f32) :=
    let* interval := sample_interval radius in
    let* (s, _) := ofold (sample_tile x y radius paint interval (sample_rate radius)) seen (mkSums f0 f0 f0 f0 f0, 0%nat) in
    finish paint s.

  (* get_color, mypaint-tiled-surface.c 803-926.  [canw]/[canr]: does the backend
     grant the tile for writing (flushing queued dabs) and for reading. *)
  Definition get_color (canw canr : tile -> bool) (order : list (tile * list Z) -> list (tile * list Z))
      (sf : surf op (list Z)) (x y radius paint : f32)
    : outcome (surf op (list Z) * (f32 * f32 * f32 * f32)) :=
    let radius := sample_radius radius in
    let* rows := sample_rows x y radius in
    let* (sf, seen) := read op (list Z) (op_steps trig mix) canw canr rows sf in
    let* c := sample_seen (order seen) x y radius paint in
    Ok (sf, c).
End Sample.
