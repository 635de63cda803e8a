(** Drawing a dab on a tiled surface: process_op, draw_dab_internal, draw_dab,
    begin_atomic and end_atomic of mypaint-tiled-surface.c, bit exact.
    [trig]: sin and cos of the mask (Mask.v), [mix]: the spectral colour mixing
    (Blend.v), [G]: sin and cos of the symmetry transforms (Symmetry.v). *)
From Verif Require Import Base F32 Queue Blend Mask Rect Arith Symmetry Plumb.
From Flocq Require Import IEEE754.BinarySingleNaN.

(* OperationDataDrawDab, operationqueue.h 7-26.  [o_pnum] is an integer in
   [1,128] stored in a float field. *)
Record op := mkOp {
  o_x : f32; o_y : f32; o_radius : f32; o_col : rgb; o_alpha : f32; o_opaque : f32;
  o_hard : f32; o_soft : f32; o_aspect : f32; o_angle : f32; o_normal : f32;
  o_lock : f32; o_colorize : f32; o_poster : f32; o_pnum : Z; o_paint : f32 }.

(** the arguments of draw_dab (mypaint-surface.h), all float *)
Record dab := mkDab {
  d_x : f32; d_y : f32; d_radius : f32; d_r : f32; d_g : f32; d_b : f32; d_opaque : f32;
  d_hard : f32; d_soft : f32; d_alpha : f32; d_aspect : f32; d_angle : f32; d_lock : f32;
  d_colorize : f32; d_poster : f32; d_pnum : f32; d_paint : f32 }.

Definition clamp01 (x : f32) : f32 := clampf x f0 f1.
Definition truthy (x : f32) : bool := negb (feq x f0).

(* (1<<15) is converted to float; the product is stored in a uint16_t *)
Definition scale15 (x : f32) : outcome Z := f_to_u16 (fmul x (f_of_Z ONE)).

(* CLAMP(ROUND(posterize_num * 100.0), 1, 128), 640; helpers.h 9, 12 *)
Definition posterize_levels (p : f32) : outcome Z :=
  let* r := d_to_int (dadd (dmul (d_of_f p) (d_of_Z 100)) (dlit 1 2)) in
  Ok (if 128 <? r then 128 else if r <? 1 then 1 else r).

(* draw_dab_internal, 631-669: [None] is "return FALSE" *)
Definition prepare_op (d : dab) : outcome (option op) :=
  let opaque := clamp01 (d_opaque d) in
  let hard := clamp01 (d_hard d) in
  let soft := clamp01 (d_soft d) in
  let lock := clamp01 (d_lock d) in
  let colorize := clamp01 (d_colorize d) in
  let poster := clamp01 (d_poster d) in
  let* pnum := posterize_levels (d_pnum d) in
  let paint := clamp01 (d_paint d) in
  if flt (d_radius d) (flit 1 10) || feq hard f0 || feq soft f1 || feq opaque f0 then Ok None
  else
    let* r := scale15 (clamp01 (d_r d)) in
    let* g := scale15 (clamp01 (d_g d)) in
    let* b := scale15 (clamp01 (d_b d)) in
    let normal := fmul (fmul (fmul f1 (fsub f1 lock)) (fsub f1 colorize)) (fsub f1 poster) in
    let aspect := if flt (d_aspect d) f1 then f1 else d_aspect d in
    Ok (Some (mkOp (d_x d) (d_y d) (d_radius d) (mkRgb r g b) (clamp01 (d_alpha d)) opaque hard soft
                   aspect (d_angle d) normal lock colorize poster pnum paint)).

(* 671-676: floor(floor(v) / 64).  The inner floor is an integer below 2^128 in
   magnitude; dividing it by 64 in double is exact, so this is integer division. *)
Definition tile_coord (v : f32) : outcome Z :=
  match dfloor_Z (d_of_f v) with
  | Some z => int_val (z / TILE)
  | None => UB
  end.

(* 671-682: the tiles of a dab, row by row *)
Definition dab_tiles (x y radius : f32) : outcome (list tile) :=
  let r_fringe := fadd radius f1 in
  let* tx1 := tile_coord (fsub x r_fringe) in
  let* tx2 := tile_coord (fadd x r_fringe) in
  let* ty1 := tile_coord (fsub y r_fringe) in
  let* ty2 := tile_coord (fadd y r_fringe) in
  Ok (flat_map (fun ty => map (fun tx => (tx, ty)) (zrange tx1 (Z.to_nat (tx2 - tx1 + 1))))
               (zrange ty1 (Z.to_nat (ty2 - ty1 + 1)))).

(* one axis of update_dirty_bbox, 600-604: floor(v - r_fringe) and
   bb + size - 1 with size = floor(v + r_fringe) - bb + 1 computed in double *)
Definition bbox_axis (v r_fringe : f32) : outcome (Z * Z) :=
  let* lo := d_floor_int (d_of_f (fsub v r_fringe)) in
  match dfloor_Z (d_of_f (fadd v r_fringe)) with
  | Some hi =>
      let* size := int_val (hi - lo + 1) in
      let* e := int_val (lo + size) in
      Ok (lo, e - 1)
  | None => UB
  end.

(* update_dirty_bbox, 596-608 *)
Definition update_dirty_bbox (r : rect) (x y radius : f32) : outcome rect :=
  let r_fringe := fadd radius f1 in
  let* (x0, x1) := bbox_axis x r_fringe in
  let* (y0, y1) := bbox_axis y r_fringe in
  let* r := expand_point r x0 y0 in
  expand_point r x1 y1.

Section Ops.
  Variables (trig : trig_oracle) (mix : mix_oracle).

  (** The blend modes activated by an operation, in the order of process_op
      (511-561); computing an opacity argument can fail (conversion to uint16_t
      out of range). *)
  Definition modes (o : op) : list (outcome (Z -> pixel -> outcome pixel)) :=
    let c := o_col o in
    let lock_opa k :=
      scale15 (fmul (fmul (fmul (fmul (o_lock o) (o_opaque o)) (fsub f1 (o_colorize o)))
                          (fsub f1 (o_poster o))) k) in
    let normal_opa k := scale15 (fmul (fmul (o_normal o) (o_opaque o)) k) in
    let one_minus_paint := fsub f1 (o_paint o) in
    (if flt (o_paint o) f1 then
       (if truthy (o_normal o) then
          [if feq (o_alpha o) f1 then
             let* k := normal_opa one_minus_paint in Ok (blend_normal c k)
           else
             let* a := scale15 (o_alpha o) in
             let* k := normal_opa one_minus_paint in Ok (blend_eraser c a k)]
        else []) ++
       (if truthy (o_lock o) && truthy (o_alpha o) then
          [let* k := lock_opa one_minus_paint in Ok (blend_lock_alpha c k)] else [])
     else []) ++
    (if flt f0 (o_paint o) then
       (if truthy (o_normal o) then
          [if feq (o_alpha o) f1 then
             let* k := normal_opa (o_paint o) in Ok (blend_normal_paint mix c k)
           else
             let* a := scale15 (o_alpha o) in
             let* k := normal_opa (o_paint o) in Ok (blend_eraser_paint mix c a k)]
        else []) ++
       (if truthy (o_lock o) && truthy (o_alpha o) then
          [let* k := lock_opa (o_paint o) in Ok (blend_lock_alpha_paint mix c k)] else [])
     else []) ++
    (if truthy (o_colorize o) then
       [let* k := scale15 (fmul (o_colorize o) (o_opaque o)) in Ok (blend_color c k)] else []) ++
    (if truthy (o_poster o) then
       [let* k := scale15 (fmul (o_poster o) (o_opaque o)) in Ok (blend_posterize k (o_pnum o))] else []).

  (* 500-508: [tx*MYPAINT_TILE_SIZE] is an int product, the subtraction is in float *)
  Definition op_mask (t : tile) (o : op) : outcome (list Z) :=
    let* ox := int_val (fst t * TILE) in
    let* oy := int_val (snd t * TILE) in
    render_dab_mask trig (fsub (o_x o) (f_of_Z ox)) (fsub (o_y o) (f_of_Z oy)) (o_radius o)
                    (o_hard o) (o_soft o) (o_aspect o) (o_angle o).

  (* process_op, 496-562, on the buffer [mem] of tile [t] *)
  Definition process_op (t : tile) (o : op) (mem : list Z) : outcome (list Z) :=
    let* mask := op_mask t o in
    ofold (fun mem b => let* b := b in stamp b mask mem) (modes o) mem.

  (** The same work cut into the accesses to single pixels (for the interleaving
      of worker threads, P_Dab.v): the pixels named by a mask, and whether the
      mask is properly terminated. *)
  Fixpoint mask_entries (mask : list Z) (q : Z) : list (Z * Z) * bool :=
    match mask with
    | [] => ([], false)
    | m :: mask' =>
        if m =? 0 then
          match mask' with
          | [] => ([], false)
          | k :: mask'' => if k =? 0 then ([], true) else mask_entries mask'' (q + k)
          end
        else let (l, b) := mask_entries mask' (q + 4) in ((q, m) :: l, b)
    end.
  Definition stamp_steps (b : Z -> pixel -> outcome pixel) (mask : list Z) : list (list Z -> outcome (list Z)) :=
    let (l, fin) := mask_entries mask 0 in
    map (fun e mem =>
           let* p := read_px mem (fst e) in
           let* p' := b (snd e) p in
           Ok (write_px mem (fst e) p')) l ++ (if fin then [] else [fun _ => UB]).
  Definition op_steps (t : tile) (o : op) : list (list Z -> outcome (list Z)) :=
    match op_mask t o with
    | Ok mask =>
        flat_map (fun b => match b with Ok b => stamp_steps b mask | Abort => [fun _ => Abort] | UB => [fun _ => UB] end)
                 (modes o)
    | Abort => [fun _ => Abort]
    | UB => [fun _ => UB]
    end.
End Ops.

(** MyPaintTiledSurface: [ts_boxes] is the memory behind self->bboxes, [ts_num]
    the field num_bboxes, [ts_dirtied] num_bboxes_dirtied. *)
Record tsurf := mkTS {
  ts_sf : surf op (list Z);
  ts_boxes : list rect;
  ts_num : Z;
  ts_dirtied : Z;
  ts_sym : symdata num32 }.

Section Surface.
  Variables (trig : trig_oracle) (mix : mix_oracle) (G : trigops num32).
  Notation flush := (flush op (list Z) (op_steps trig mix)).
  Notation read := (read op (list Z) (op_steps trig mix)).

  (* draw_dab_internal, 611-687 *)
  Definition draw_dab_internal (ts : tsurf) (d : dab) (idx : Z) : outcome (tsurf * bool) :=
    let* o := prepare_op d in
    match o with
    | None => Ok (ts, false)
    | Some o =>
        let* tiles := dab_tiles (d_x d) (d_y d) (d_radius d) in
        let* sf := enqueue op (list Z) (ts_sf ts) o tiles in
        let* r := at_index (ts_boxes ts) idx in
        let* r := update_dirty_bbox r (o_x o) (o_y o) (o_radius o) in
        Ok (mkTS sf (upd (ts_boxes ts) (Z.to_nat idx) r) (ts_num ts) (ts_dirtied ts) (ts_sym ts), true)
    end.

  Definition moved (d : dab) (x y angle : f32) : dab :=
    mkDab x y (d_radius d) (d_r d) (d_g d) (d_b d) (d_opaque d) (d_hard d) (d_soft d) (d_alpha d)
          (d_aspect d) angle (d_lock d) (d_colorize d) (d_poster d) (d_pnum d) (d_paint d).

  Definition set_dirtied (ts : tsurf) (n : Z) : tsurf :=
    mkTS (ts_sf ts) (ts_boxes ts) (ts_num ts) n (ts_sym ts).

  (* draw_dab, 690-800; the positions, angles and rectangle indices of the
     symmetry pass come from Symmetry.v *)
  Definition draw_dab (ts : tsurf) (d : dab) : outcome (tsurf * bool) :=
    let* (ts, modified) := draw_dab_internal ts d 0 in
    if modified then
      let* (extras, used) := symmetry_pass G (ts_sym ts) (ts_num ts) (d_x d) (d_y d) (d_angle d) in
      let* ts := ofold (fun ts (e : @extra num32) =>
                   let* r := draw_dab_internal ts (moved d (e_x e) (e_y e) (e_angle e)) (e_box e) in Ok (fst r))
                 extras ts in
      Ok (set_dirtied ts (Z.min (ts_num ts) used), true)
    else Ok (set_dirtied ts (Z.min (ts_num ts) 0), false).

  (* prepare_bounding_boxes, 50-84; [ok]: does malloc succeed *)
  Definition prepare_bounding_boxes (ok : bool) (ts : tsurf) : outcome tsurf :=
    let s := sd_cur (ts_sym ts) in
    let* desired := int_val (fl (s_lines s * (match s_type s with Snowflake => 2 | _ => 1 end))) in
    let* (boxes, num, dirtied) :=
      if ts_num ts <? desired then
        let* num := int_val (desired + 10) in
        let bytes := to_int (num * 16) in
        if ok && (0 <=? bytes) then Ok (repeat rect0 (Z.to_nat (bytes / 16)), num, 0)
        else Ok (ts_boxes ts, ts_num ts, ts_dirtied ts)
      else Ok (ts_boxes ts, ts_num ts, ts_dirtied ts) in
    let* boxes := ofold (fun bs i => let* _ := at_index bs i in Ok (upd bs (Z.to_nat i) rect0))
                        (zrange 0 (Z.to_nat (Z.min num dirtied))) boxes in
    Ok (mkTS (ts_sf ts) boxes num 0 (ts_sym ts)).

  (* mypaint_tiled_surface_begin_atomic, 94-99 *)
  Definition begin_atomic (transforms_ok rects_ok : bool) (ts : tsurf) : outcome tsurf :=
    let* sym := update_symmetry_state G transforms_ok (ts_sym ts) in
    prepare_bounding_boxes rects_ok (mkTS (ts_sf ts) (ts_boxes ts) (ts_num ts) (ts_dirtied ts) sym).

  (* mypaint_tiled_surface_end_atomic, 109-149; [roi]: the caller's array and its
     num_rectangles field, if any.  Returns the array and the new field. *)
  Definition end_atomic (can : tile -> bool) (roi : option (list rect * Z)) (ts : tsurf)
    : outcome (tsurf * option (list rect * Z)) :=
    let* sf := flush can (ts_sf ts) in
    let ts := mkTS sf (ts_boxes ts) (ts_num ts) (ts_dirtied ts) (ts_sym ts) in
    match roi with
    | None => Ok (ts, None)
    | Some (rects, cap) =>
        let* r := write_roi (ts_boxes ts) (ts_dirtied ts) rects cap in
        Ok (ts, Some r)
    end.

  (* mypaint_tiled_surface_init, 934-957.  [pix]: what the backend holds;
     [junk]: num_bboxes_dirtied is not initialised *)
  Definition tiled_surface_init (ok : bool) (junk : Z) (pix : tile -> list Z) : outcome tsurf :=
    let* sym := default_symmetry_data G ok in
    Ok (mkTS (mkSurf operation_queue_new pix) (repeat rect0 32) 32 junk sym).

  (** Histories of a surface *)
  Inductive sev :=
  | SSym (active : bool) (cx cy angle : f32) (ty : symtype) (lines : Z)   (* mypaint_tiled_surface_set_symmetry_state *)
  | SBegin (transforms_ok rects_ok : bool)
  | SDab (d : dab)
  | SRead (canw canr : tile -> bool) (rows : list (list tile))             (* get_color, the tiles it visits *)
  | SEnd (can : tile -> bool) (roi : option (list rect * Z)).

  Inductive sres := RNone | RDab (modified : bool) | RSeen (l : list (tile * list Z)) | RRoi (r : option (list rect * Z)).

  Definition sstep (ts : tsurf) (e : sev) : outcome (tsurf * sres) :=
    match e with
    | SSym active cx cy angle ty lines =>
        Ok (mkTS (ts_sf ts) (ts_boxes ts) (ts_num ts) (ts_dirtied ts)
                 (set_pending (ts_sym ts) active (cx : num32) cy angle ty lines), RNone)
    | SBegin ok1 ok2 => let* ts := begin_atomic ok1 ok2 ts in Ok (ts, RNone)
    | SDab d => let* (ts, m) := draw_dab ts d in Ok (ts, RDab m)
    | SRead canw canr rows =>
        let* (sf, seen) := read canw canr rows (ts_sf ts) in
        Ok (mkTS sf (ts_boxes ts) (ts_num ts) (ts_dirtied ts) (ts_sym ts), RSeen seen)
    | SEnd can roi => let* (ts, r) := end_atomic can roi ts in Ok (ts, RRoi r)
    end.
  Definition srun (ts : tsurf) (evs : list sev) : outcome (tsurf * list sres) :=
    ofold (fun a e => let* (ts, r) := sstep (fst a) e in Ok (ts, snd a ++ [r])) evs (ts, []).
End Surface.
