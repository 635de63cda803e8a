(** mypaint-rectangle.c and the rectangle output of end_atomic. *)
From Verif Require Import Base F32.
From Flocq Require Import IEEE754.BinarySingleNaN.

(* MyPaintRectangle, mypaint-rectangle.h *)
Record rect := mkRect { rx : Z; ry : Z; rw : Z; rh : Z }.
Definition rect0 : rect := mkRect 0 0 0 0.

(* one axis of mypaint_rectangle_expand_to_include_point, 44-48: position [p]
   and size [s] grow to include [x]; every int operation is checked *)
Definition expand_axis (p s x : Z) : outcome (Z * Z) :=
  if x <? p then
    let* d := int_val (p - x) in
    let* s' := int_val (s + d) in Ok (x, s')
  else
    let* e := int_val (p + s) in
    if e <=? x then
      let* d := int_val (x - p) in
      let* s' := int_val (d + 1) in Ok (p, s')
    else Ok (p, s).

(* mypaint_rectangle_expand_to_include_point, 38-50 *)
Definition expand_point (r : rect) (x y : Z) : outcome rect :=
  if rw r =? 0 then Ok (mkRect x y 1 1)
  else
    let* (px, sx) := expand_axis (rx r) (rw r) x in
    let* (py, sy) := expand_axis (ry r) (rh r) y in
    Ok (mkRect px py sx sy).

(* mypaint_rectangle_expand_to_include_rect, 52-57 *)
Definition expand_rect (r o : rect) : outcome rect :=
  let* r1 := expand_point r (rx o) (ry o) in
  let* a := int_val (rx o + rw o) in
  let* a := int_val (a - 1) in
  let* b := int_val (ry o + rh o) in
  let* b := int_val (b - 1) in
  expand_point r1 a b.

(** C [roundf]: halfway cases away from zero. *)
Definition froundf (x : f32) : f32 :=
  match x with
  | B754_finite s m e _ =>
      if 0 <=? e then x
      else
        let q := (2 * Zpos m + 2 ^ (- e)) / 2 ^ (1 - e) in
        f_of_Z (if s then - q else q)
  | _ => x
  end.

(* bboxes_per_output, mypaint-tiled-surface.c 133: MAX(1, (float)num_dirty / roi_rects)
   (the int operand is converted to float) *)
Definition per_output (num_dirty roi_rects : Z) : f32 :=
  let q := fdiv (f_of_Z num_dirty) (f_of_Z roi_rects) in
  if flt q (f_of_Z 1) then f_of_Z 1 else q.

(* out_index, 135-142: (int)MIN(roi_rects - 1, roundf((float)i / bboxes_per_output)) *)
Definition roi_index (num_dirty roi_rects i : Z) : outcome Z :=
  if roi_rects <? num_dirty then
    let r := froundf (fdiv (f_of_Z i) (per_output num_dirty roi_rects)) in
    let k := f_of_Z (roi_rects - 1) in
    f_to_int (if flt k r then k else r)
  else Ok i.

(* access to an array element; outside is undefined *)
Definition at_index {A} (l : list A) (i : Z) : outcome A :=
  if i <? 0 then UB else match nth_error l (Z.to_nat i) with Some a => Ok a | None => UB end.

(* the writing part of mypaint_tiled_surface_end_atomic, 121-148.  [roi] is the
   caller's array with its real length, [cap] the num_rectangles field (which
   the caller promises to be at most the length); [boxes] is the internal array,
   [num_dirty] the counter.  Returns the array and the new num_rectangles. *)
Definition write_roi (boxes : list rect) (num_dirty : Z) (roi : list rect) (cap : Z) : outcome (list rect * Z) :=
  let m := Z.min cap num_dirty in
  let* roi := ofold (fun roi i => let* _ := at_index roi i in Ok (upd roi (Z.to_nat i) rect0))
                    (zrange 0 (Z.to_nat m)) roi in
  let* roi := ofold (fun roi i =>
                       let* j := roi_index num_dirty cap i in
                       let* r := at_index roi j in
                       let* b := at_index boxes i in
                       let* r := expand_rect r b in
                       Ok (upd roi (Z.to_nat j) r))
                    (zrange 0 (Z.to_nat num_dirty)) roi in
  Ok (roi, m).
