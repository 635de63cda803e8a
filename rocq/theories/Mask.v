(** Model of the dab mask: [render_dab_mask] of mypaint-tiled-surface.c
    (lines 227-493), bit exact in [float] and [double].  [sin] and [cos] are an
    oracle [trig] from the dab angle to the pair (cos, sin) rounded to float. *)
From Verif Require Import Base F32 Blend.
From Flocq Require Import IEEE754.BinarySingleNaN.

Definition TILE : Z := 64.               (* MYPAINT_TILE_SIZE, mypaint-config.h *)
Definition MASK_CAP : Z := TILE * TILE + 2 * TILE.   (* mypaint-tiled-surface.c 585 *)

Definition trig_oracle : Type := f32 -> f32 * f32.

Definition fhalf : f32 := flit 1 2.
Definition f3 : f32 := f_of_Z 3.

(** 226-234 [calculate_r_sample] *)
Definition calculate_r_sample (x y aspect_ratio sn cs : f32) : f32 :=
  let yyr := fmul (fsub (fmul y cs) (fmul x sn)) aspect_ratio in
  let xxr := fadd (fmul y sn) (fmul x cs) in
  fadd (fmul yyr yyr) (fmul xxr xxr).

(** 236-248 [calculate_rr] *)
Definition calculate_rr (xp yp : Z) (x y aspect_ratio sn cs one_over_radius2 : f32) : f32 :=
  let yy := fsub (fadd (f_of_Z yp) fhalf) y in
  let xx := fsub (fadd (f_of_Z xp) fhalf) x in
  let yyr := fmul (fsub (fmul yy cs) (fmul xx sn)) aspect_ratio in
  let xxr := fadd (fmul yy sn) (fmul xx cs) in
  fmul (fadd (fmul yyr yyr) (fmul xxr xxr)) one_over_radius2.

(** 250-254 [sign_point_in_line] *)
Definition sign_point_in_line (px py vx vy : f32) : f32 :=
  fsub (fmul (fsub px vx) (fopp vy)) (fmul vx (fsub py vy)).

(** 256-264 [closest_point_to_line] *)
Definition closest_point_to_line (lx ly px py : f32) : f32 * f32 :=
  let l2 := fadd (fmul lx lx) (fmul ly ly) in
  let ltp_dot := fadd (fmul px lx) (fmul py ly) in
  let t := fdiv ltp_dot l2 in
  (fmul lx t, fmul ly t).

(** 325: [sqrtf(1.0f / M_PI)]; M_PI as a double is 7074237752028440 / 2^51. *)
Definition M_PI : f64 := dlit 7074237752028440 2251799813685248.
Definition rad_area_1 : f32 := fsqrt (f_of_d (ddiv (d_of_Z 1) M_PI)).

(** 276-354 [calculate_rr_antialiased] *)
Definition calculate_rr_antialiased (xp yp : Z)
    (x y aspect_ratio sn cs one_over_radius2 r_aa_start : f32) : f32 :=
  let pixel_right := fsub x (f_of_Z xp) in
  let pixel_bottom := fsub y (f_of_Z yp) in
  let pixel_center_x := fsub pixel_right fhalf in
  let pixel_center_y := fsub pixel_bottom fhalf in
  let pixel_left := fsub pixel_right f1 in
  let pixel_top := fsub pixel_bottom f1 in
  let inside := flt pixel_left f0 && flt f0 pixel_right && flt pixel_top f0 && flt f0 pixel_bottom in
  let '(nearest_x, nearest_y, rr_near) :=
    if inside then (f0, f0, f0)
    else
      let '(nx, ny) := closest_point_to_line cs sn pixel_center_x pixel_center_y in
      let nx := clampf nx pixel_left pixel_right in
      let ny := clampf ny pixel_top pixel_bottom in
      (nx, ny, fmul (calculate_r_sample nx ny aspect_ratio sn cs) one_over_radius2) in
  if flt f1 rr_near then rr_near
  else
    let center_sign := sign_point_in_line pixel_center_x pixel_center_y cs (fopp sn) in
    let '(farthest_x, farthest_y) :=
      if flt center_sign f0
      then (fsub nearest_x (fmul sn rad_area_1), fadd nearest_y (fmul cs rad_area_1))
      else (fadd nearest_x (fmul sn rad_area_1), fsub nearest_y (fmul cs rad_area_1)) in
    let r_far := calculate_r_sample farthest_x farthest_y aspect_ratio sn cs in
    let rr_far := fmul r_far one_over_radius2 in
    if flt r_far r_aa_start then fmul (fadd rr_far rr_near) fhalf
    else
      let visibilityNear := fsub f1 rr_near in
      let delta := fsub rr_far rr_near in
      let delta2 := fadd f1 delta in
      fsub f1 (fdiv visibilityNear delta2).

(** 413-416: the two linear segments of the opacity profile:
    (offset1, slope1, offset2, slope2) *)
Definition segments (hardness softness : f32) : f32 * f32 * f32 * f32 :=
  let s := fsub f1 softness in
  (fmul f1 s,
   fmul (fopp (fsub (fdiv f1 hardness) f1)) s,
   fmul (fdiv hardness (fsub f1 hardness)) s,
   fmul (fdiv (fopp hardness) (fsub f1 hardness)) s).

(** 356-373 [calculate_opa] (without HEAVY_DEBUG) *)
Definition calculate_opa (rr hardness : f32) (seg : f32 * f32 * f32 * f32) : f32 :=
  let '(o1, s1, o2, s2) := seg in
  let near := fle rr hardness in
  let fac := if near then s1 else s2 in
  let opa := fadd (if near then o1 else o2) (fmul rr fac) in
  if flt f1 rr then f0 else opa.

(** 475: [const uint16_t opa_ = opa * (1<<15)] *)
Definition opa_u16 (opa : f32) : outcome Z := f_to_u16 (fmul opa (f_of_Z ONE)).

(** ** The run-length encoder, 461-492.

    [emit] writes one word at the mask pointer; leaving the buffer is
    undefined behaviour.  The list holds what has been written so far. *)
Definition emit (buf : list Z) (v : Z) : outcome (list Z) :=
  if Z.of_nat (length buf) <? MASK_CAP then Ok (buf ++ [v]) else UB.

(** 476-486: one pixel; state: written words, [skip] *)
Definition enc_pixel (st : list Z * Z) (v : Z) : outcome (list Z * Z) :=
  let (buf, skip) := st in
  if v =? 0 then Ok (buf, skip + 1)
  else
    let* buf := if skip =? 0 then Ok buf
                else let* b := emit buf 0 in emit b (u16 (skip * 4)) in
    let* buf := emit buf v in
    Ok (buf, 0).

(** 467-489: one row.  [opa x y] is the mask value computed at 471-475. *)
Definition enc_row (opa : Z -> Z -> outcome Z) (x0 x1 : Z) (st : list Z * Z) (yp : Z)
  : outcome (list Z * Z) :=
  let* skip := int_val (snd st + x0) in
  let* (buf, skip) :=
    ofold (fun st xp => let* v := opa xp yp in enc_pixel st v)
          (zrange x0 (Z.to_nat (x1 - x0 + 1))) (fst st, skip) in
  let* skip := int_val (skip + (TILE - Z.max x0 (x1 + 1))) in
  Ok (buf, skip).

(** 461-492 *)
Definition encode (opa : Z -> Z -> outcome Z) (x0 y0 x1 y1 : Z) : outcome (list Z) :=
  let* skip := int_val (y0 * TILE) in
  let* (buf, _) := ofold (enc_row opa x0 x1) (zrange y0 (Z.to_nat (y1 - y0 + 1))) ([], skip) in
  let* buf := emit buf 0 in
  emit buf 0.

(** 422-431: pixel range of the dab inside the tile *)
Definition dab_box (x y radius : f32) : outcome (Z * Z * Z * Z) :=
  let r_fringe := fadd radius f1 in
  let* x0 := d_floor_int (d_of_f (fsub x r_fringe)) in
  let* y0 := d_floor_int (d_of_f (fsub y r_fringe)) in
  let* x1 := d_floor_int (d_of_f (fadd x r_fringe)) in
  let* y1 := d_floor_int (d_of_f (fadd y r_fringe)) in
  Ok (Z.max x0 0, Z.max y0 0, Z.min x1 (TILE - 1), Z.min y1 (TILE - 1)).

(** 376-493 [render_dab_mask]; returns the words written to [mask].  The
    intermediate array [rr_mask] (434-459) is inlined: each element is written
    once and read once, at index [yp*64+xp] with 0 <= xp, yp <= 63. *)
Definition rr_at (trig : trig_oracle) (x y radius aspect_ratio angle : f32) (xp yp : Z) : f32 :=
  let aspect_ratio := if flt aspect_ratio f1 then f1 else aspect_ratio in
  let '(cs, sn) := trig angle in
  let one_over_radius2 := fdiv f1 (fmul radius radius) in
  if flt radius f3 then
    let r := if flt f1 radius then fsub radius f1 else f0 in
    let r_aa_start := fmul r (fdiv r aspect_ratio) in
    calculate_rr_antialiased xp yp x y aspect_ratio sn cs one_over_radius2 r_aa_start
  else calculate_rr xp yp x y aspect_ratio sn cs one_over_radius2.

Definition mask_value (trig : trig_oracle) (x y radius hardness softness aspect_ratio angle : f32)
    (xp yp : Z) : outcome Z :=
  opa_u16 (calculate_opa (rr_at trig x y radius aspect_ratio angle xp yp) hardness
                         (segments hardness softness)).

Definition render_dab_mask (trig : trig_oracle)
    (x y radius hardness softness aspect_ratio angle : f32) : outcome (list Z) :=
  let hardness := clampf hardness f0 f1 in
  if feq hardness f0 then Abort
  else
    let* (x0, y0, x1, y1) := dab_box x y radius in
    encode (mask_value trig x y radius hardness softness aspect_ratio angle) x0 y0 x1 y1.
