(** A painting program: one brush and one tiled surface, used together.

    The brush is the model of Brush.v, the surface the model of Dab.v; here they
    are put together as in mypaint-surface.c: the brush draws its dabs through
    mypaint_surface_draw_dab, which hands them on to the surface. *)
From Verif Require Import Base F32 Arith Color Mapping Settings Spectral Brush BrushInst Queue Blend Rect Symmetry Mask Plumb Paint.
From Verif Require Dab.
Local Open Scope Z_scope.

(* mypaint_surface_draw_dab, mypaint-surface.c 27-46: the arguments are handed on *)
Definition handed_on (d : Brush.dab mix64) : Dab.dab :=
  Dab.mkDab (dab_x d) (dab_y d) (dab_radius d) (dab_r d) (dab_g d) (dab_b d) (dab_opaque d) (dab_hardness d) (dab_softness d)
    (dab_alpha_eraser d) (dab_aspect d) (dab_angle d) (dab_lock_alpha d) (dab_colorize d) (dab_posterize d) (dab_posterize_num d) (dab_paint d).

Section Easel.
  (** sin and cos of a dab's angle (Mask.v) and of the symmetry (Symmetry.v), the
      functions of the C library the brush uses, the random number generator, and
      what mypaint_surface_get_color answers to the brush *)
  Variables (trig : Mask.trig_oracle) (G : trigops num32) (L : mathlib mix64).
  Variables (rng : Type) (next : rng -> outcome (f64 * rng)).
  Variable get : Dab.tsurf -> f32 -> f32 -> f32 -> f32 -> outcome (rgba mix64 * Dab.tsurf).

  Definition easel : env mix64 :=
    mkEnv mix64 rng next Dab.tsurf
      (fun ts d => let* (ts', modified) := Dab.draw_dab G ts (handed_on d) in Ok (modified, ts')) get.

  (** what a program does: pen events and the other calls on the brush, the start
      and the end of an operation on the surface, and picking a colour from the
      surface ([rows]: the tiles that are visited) *)
  Inductive action :=
  | Pen (e : event mix64)                                   (* mypaint_brush_stroke_to *)
  | NewStroke                                               (* mypaint_brush_new_stroke *)
  | ResetBrush                                              (* mypaint_brush_reset *)
  | LoadDefaults                                            (* mypaint_brush_from_defaults *)
  | SetBase (id : Z) (v : f32)                              (* mypaint_brush_set_base_value *)
  | SetPoints (id input n : Z)                              (* mypaint_brush_set_mapping_n *)
  | SetPoint (id input index : Z) (x y : f32)               (* mypaint_brush_set_mapping_point *)
  | SetSymmetry (active : bool) (cx cy angle : f32) (ty : symtype) (lines : Z) (* mypaint_tiled_surface_set_symmetry_state *)
  | Begin (transforms_ok rects_ok : bool)                   (* mypaint_surface_begin_atomic *)
  | Pick (canw canr : tile -> bool) (rows : list (list tile)) (* mypaint_surface_get_color *)
  | End (can : tile -> bool) (roi : option (list rect * Z)). (* mypaint_surface_end_atomic *)

  (* what is called on the brush *)
  Definition brush_call (a : action) : option (call mix64) :=
    match a with
    | Pen e => Some (CStroke e)
    | NewStroke => Some CNewStroke
    | ResetBrush => Some CReset
    | SetBase id v => Some (CBase id (v : car (sng mix64)))
    | SetPoints id input n => Some (CMapN id input n)
    | SetPoint id input index x y => Some (CMapPoint id input index (x : car (sng mix64)) y)
    | _ => None
    end.
  (* what is called on the surface; mypaint_surface_begin_atomic and
     mypaint_surface_end_atomic, mypaint-surface.c 115-134, hand on *)
  Definition surface_call (a : action) : option Dab.sev :=
    match a with
    | SetSymmetry active cx cy angle ty lines => Some (Dab.SSym active cx cy angle ty lines)
    | Begin ok1 ok2 => Some (Dab.SBegin ok1 ok2)
    | Pick canw canr rows => Some (Dab.SRead canw canr rows)
    | End can roi => Some (Dab.SEnd can roi)
    | _ => None
    end.

  (** the brush and the surface; [None]: [fuel] dabs were not enough for an event *)
  Definition act (fuel : nat) (s : brush easel * world easel) (a : action) : outcome (option (brush easel * world easel)) :=
    let '(b, w) := s in
    match a with
    | LoadDefaults => let* b := from_defaults L b in Ok (Some (b, w))
    | _ =>
    match brush_call a with
    | Some c => run_call (E := easel) L fuel b w c
    | None =>
        match surface_call a with
        | Some e => let* (ts, _) := Dab.sstep trig paint_mix G (w_surf w) e in Ok (Some (b, mkWorld (E := easel) ts (w_mix w)))
        | None => Ok (Some (b, w))
        end
    end
    end.
  Fixpoint run (fuel : nat) (s : brush easel * world easel) (l : list action) : outcome (option (brush easel * world easel)) :=
    match l with
    | [] => Ok (Some s)
    | a :: l => let* r := act fuel s a in match r with None => Ok None | Some s => run fuel s l end
    end.
End Easel.
