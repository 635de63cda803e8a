(** mypaint-matrix.c, mypaint-symmetry.c and the symmetry part of draw_dab
    (mypaint-tiled-surface.c).  Written over an arbitrary arithmetic [A] with
    trigonometry [G]: bit-exact for [num32] with the C library's sin and cos as
    an oracle, exact for [numR]. *)
From Verif Require Import Base F32 Arith Rect.
From Coq Require Import Reals.
From Flocq Require Import IEEE754.BinarySingleNaN.
Local Open Scope Z_scope.

(** What the code computes in double and rounds to float, or takes from libm. *)
Record trigops (A : arith) := mkTrig {
  tcos : A -> A;                (* (float) cos(a) *)
  tsin : A -> A;
  deg_to_rad : A -> A;          (* (float) (a * (M_PI / 180.0)), mypaint-symmetry.c 83 *)
  quarter_turn : A -> A;        (* (float) (a + M_PI / 2.0), 91, 96 *)
  turn_part : Z -> A;           (* (float) ((2.0 * M_PI) / num_lines), 84 *)
  turn_part_deg : Z -> A;       (* (float) (360.0 / num_lines), mypaint-tiled-surface.c 730 *)
  mirror_deg : A -> A -> A      (* (float) (-2.0 * a - b), 738, 744, 751 *)
}.
Arguments tcos {A}. Arguments tsin {A}. Arguments deg_to_rad {A}. Arguments quarter_turn {A}.
Arguments turn_part {A}. Arguments turn_part_deg {A}. Arguments mirror_deg {A}.

(** M_PI as a C double *)
Definition M_PI64 : f64 := dlit 7074237752028440 2251799813685248.
Definition trig32 (cos32 sin32 : f32 -> f32) : trigops num32 :=
  mkTrig num32 cos32 sin32
    (fun a => f_of_d (dmul (d_of_f a) (ddiv M_PI64 (d_of_Z 180))))
    (fun a => f_of_d (dadd (d_of_f a) (ddiv M_PI64 (d_of_Z 2))))
    (fun n => f_of_d (ddiv (dmul (d_of_Z 2) M_PI64) (d_of_Z n)))
    (fun n => f_of_d (ddiv (d_of_Z 360) (d_of_Z n)))
    (fun a b => f_of_d (dsub (dmul (d_of_Z (-2)) (d_of_f a)) (d_of_f b))).
Definition trigR : trigops numR :=
  mkTrig numR cos sin (fun a => a * (PI / 180))%R (fun a => a + PI / 2)%R
    (fun n => 2 * PI / IZR n)%R (fun n => 360 / IZR n)%R (fun a b => -2 * a - b)%R.

(** The field [num_lines] of the state is a float holding an integer: [fl] is
    the conversion of an integer value to float (exact up to 2^24). *)
Definition fl (z : Z) : Z :=
  match f_to_Z (- 4294967296) 4294967296 (f_of_Z z) with Ok v => v | _ => 0 end.

(** ** mypaint-matrix.c *)
Record mat (A : arith) := mkMat {
  m00 : A; m01 : A; m02 : A; m10 : A; m11 : A; m12 : A; m20 : A; m21 : A; m22 : A }.
Arguments mkMat {A}. Arguments m00 {A}. Arguments m01 {A}. Arguments m02 {A}. Arguments m10 {A}.
Arguments m11 {A}. Arguments m12 {A}. Arguments m20 {A}. Arguments m21 {A}. Arguments m22 {A}.

Section Matrix.
  Context {A : arith} (G : trigops A).
  Let O : A := nofZ 0.
  Let I : A := nofZ 1.

  (* one element of mypaint_matrix_multiply, 27-30 *)
  Definition dot3 (a b c d e f : A) : A := nadd (nadd (nmul a b) (nmul c d)) (nmul e f).

  (* mypaint_matrix_multiply, 21-33 *)
  Definition matrix_multiply (a b : mat A) : mat A := mkMat
    (dot3 (m00 a) (m00 b) (m10 a) (m01 b) (m20 a) (m02 b))
    (dot3 (m01 a) (m00 b) (m11 a) (m01 b) (m21 a) (m02 b))
    (dot3 (m02 a) (m00 b) (m12 a) (m01 b) (m22 a) (m02 b))
    (dot3 (m00 a) (m10 b) (m10 a) (m11 b) (m20 a) (m12 b))
    (dot3 (m01 a) (m10 b) (m11 a) (m11 b) (m21 a) (m12 b))
    (dot3 (m02 a) (m10 b) (m12 a) (m11 b) (m22 a) (m12 b))
    (dot3 (m00 a) (m20 b) (m10 a) (m21 b) (m20 a) (m22 b))
    (dot3 (m01 a) (m20 b) (m11 a) (m21 b) (m21 a) (m22 b))
    (dot3 (m02 a) (m20 b) (m12 a) (m21 b) (m22 a) (m22 b)).

  Definition nneg (a : A) : A := nsub O a.   (* -a; signed zeros are not distinguished *)

  (* mypaint_transform_unit, 35-40 *)
  Definition transform_unit : mat A := mkMat I O O O I O O O I.
  (* mypaint_transform_rotate_cw, 42-48 *)
  Definition rotate_cw (t : mat A) (a : A) : mat A :=
    matrix_multiply t (mkMat (tcos G a) (tsin G a) O (nneg (tsin G a)) (tcos G a) O O O I).
  (* mypaint_transform_rotate_ccw, 50-60 *)
  Definition rotate_ccw (t : mat A) (a : A) : mat A :=
    matrix_multiply t (mkMat (tcos G a) (nneg (tsin G a)) O (tsin G a) (tcos G a) O O O I).
  (* mypaint_transform_reflect, 62-73.  2.0 * x * y is computed in double, where
     both products are exact, and rounded once: the same as in float. *)
  Definition reflect (t : mat A) (a : A) : mat A :=
    let x := tcos G a in
    let y := tsin G a in
    let xy2 := nmul (nmul (nofZ 2) x) y in
    matrix_multiply t
      (mkMat (nsub (nmul x x) (nmul y y)) xy2 O xy2 (nsub (nmul y y) (nmul x x)) O O O I).
  (* mypaint_transform_translate, 76-85 *)
  Definition translate (t : mat A) (x y : A) : mat A :=
    matrix_multiply t (mkMat I O x O I y O O I).
  (* mypaint_transform_point, 87-92 *)
  Definition transform_point (t : mat A) (x y : A) : A * A :=
    (nadd (nadd (nmul (m00 t) x) (nmul (m01 t) y)) (m02 t),
     nadd (nadd (nmul (m10 t) x) (nmul (m11 t) y)) (m12 t)).
End Matrix.

(** ** mypaint-symmetry.c *)
Inductive symtype := Vertical | Horizontal | VertHorz | Rotational | Snowflake | OtherType (z : Z).
Definition symtype_eqb (a b : symtype) : bool :=
  match a, b with
  | Vertical, Vertical | Horizontal, Horizontal | VertHorz, VertHorz
  | Rotational, Rotational | Snowflake, Snowflake => true
  | OtherType x, OtherType y => x =? y
  | _, _ => false
  end.

(* MyPaintSymmetryState, mypaint-symmetry.h 49-55; [s_lines] is the integer held
   by the float num_lines *)
Record symstate (A : arith) := mkSym { s_type : symtype; s_cx : A; s_cy : A; s_angle : A; s_lines : Z }.
Arguments mkSym {A}. Arguments s_type {A}. Arguments s_cx {A}. Arguments s_cy {A}. Arguments s_angle {A}. Arguments s_lines {A}.

(* MyPaintSymmetryData, mypaint-symmetry.h 65-72.  [sd_mats] is the memory at
   symmetry_matrices: as many elements as fit into the allocation, [None] when
   not written yet; the pointer is NULL iff [sd_mats] is [None]. *)
Record symdata (A : arith) := mkSymData {
  sd_cur : symstate A; sd_pend : symstate A; sd_changes : bool; sd_active : bool;
  sd_num : Z; sd_mats : option (list (option (mat A))) }.
Arguments mkSymData {A}. Arguments sd_cur {A}. Arguments sd_pend {A}. Arguments sd_changes {A}.
Arguments sd_active {A}. Arguments sd_num {A}. Arguments sd_mats {A}.

(** int conversion of a size_t value (gcc: modulo 2^32) *)
Definition to_int (z : Z) : Z := (z + 2147483648) mod 4294967296 - 2147483648.

Section Symmetry.
  Context {A : arith} (G : trigops A).

  Definition resize {B} (l : list (option B)) (n : nat) : list (option B) :=
    firstn n l ++ repeat None (n - length l).

  (* allocate_symmetry_matrices, 15-29.  [ok]: does realloc succeed.  A negative
     byte count becomes a huge size_t, for which realloc always fails. *)
  Definition allocate_matrices (ok : bool) (d : symdata A) (num : Z) : bool * symdata A :=
    let bytes := to_int (num * 36) in
    if ok && (0 <? bytes) then
      let old := match sd_mats d with Some l => l | None => [] end in
      (true, mkSymData (sd_cur d) (sd_pend d) (sd_changes d) (sd_active d) num
               (Some (resize old (Z.to_nat (bytes / 36)))))
    else (false, mkSymData (sd_cur d) (sd_pend d) (sd_changes d) (sd_active d) 0 (sd_mats d)).

  (* symmetry_states_equal, 31-36 *)
  Definition states_equal (a b : symstate A) : bool :=
    symtype_eqb (s_type a) (s_type b) && neqb (s_cx a) (s_cx b) && neqb (s_cy a) (s_cy b) &&
    neqb (s_angle a) (s_angle b) && (s_lines a =? s_lines b).

  (* num_matrices_required, 38-54 (float arithmetic on num_lines, returned as int) *)
  Definition num_matrices_required (s : symstate A) : outcome Z :=
    match s_type s with
    | Vertical | Horizontal => Ok 1
    | VertHorz => Ok 3
    | Rotational => int_val (fl (s_lines s - 1))
    | Snowflake => int_val (fl (fl (2 * s_lines s) - 1))
    | OtherType _ => Ok 0
    end.

  (* writing and reading an element of the array; NULL or outside is undefined,
     so is reading an element never written *)
  Definition set_mat (ms : option (list (option (mat A)))) (i : Z) (m : mat A) : outcome (option (list (option (mat A)))) :=
    match ms with
    | Some l => if (0 <=? i) && (i <? Z.of_nat (length l)) then Ok (Some (upd l (Z.to_nat i) (Some m))) else UB
    | None => UB
    end.
  Definition get_mat (ms : option (list (option (mat A)))) (i : Z) : outcome (mat A) :=
    match ms with
    | Some l => if 0 <=? i then match nth_error l (Z.to_nat i) with Some (Some m) => Ok m | _ => UB end else UB
    | None => UB
    end.

  (** the values of i in for (int i = lo; i < num_lines; ++i): the comparison
      converts i to float *)
  Definition upto (lo lines : Z) : list Z := filter (fun i => fl i <? lines) (zrange lo (Z.to_nat (lines - lo))).

  (* the base of all transforms, 86 *)
  Definition centre_origin (s : symstate A) : mat A :=
    translate transform_unit (nneg (s_cx s)) (nneg (s_cy s)).

  (* the switch of mypaint_update_symmetry_state, 87-117; [None] for the default case *)
  Definition fill_matrices (s : symstate A) (ms : option (list (option (mat A))))
    : outcome (option (option (list (option (mat A))))) :=
    let angle := deg_to_rad G (s_angle s) in
    let rot_angle := turn_part G (s_lines s) in
    let m := centre_origin s in
    let rotations ms :=
      ofold (fun ms i => set_mat ms (i - 1) (rotate_cw G m (nmul rot_angle (nofZ i)))) (upto 1 (s_lines s)) ms in
    match s_type s with
    | Horizontal => let* ms := set_mat ms 0 (reflect G m (nneg angle)) in Ok (Some ms)
    | Vertical => let* ms := set_mat ms 0 (reflect G m (nneg (quarter_turn G angle))) in Ok (Some ms)
    | VertHorz =>
        let v_angle := quarter_turn G angle in
        let* ms := set_mat ms 0 (reflect G m (nneg angle)) in
        let* a := get_mat ms 0 in
        let* ms := set_mat ms 1 (reflect G a (nneg v_angle)) in
        let* a := get_mat ms 1 in
        let* ms := set_mat ms 2 (reflect G a (nneg angle)) in
        Ok (Some ms)
    | Snowflake =>
        let* base_idx := int_val (fl (s_lines s - 1)) in
        let* ms := ofold (fun ms i =>
                     set_mat ms (base_idx + i)
                       (reflect G (rotate_cw G m (nmul rot_angle (nofZ i)))
                          (nsub (nmul (nofZ (- i)) rot_angle) angle)))
                     (upto 0 (s_lines s)) ms in
        let* ms := rotations ms in Ok (Some ms)
    | Rotational => let* ms := rotations ms in Ok (Some ms)
    | OtherType _ => Ok None
    end.

  (* mypaint_update_symmetry_state, 65-121; [ok]: does the realloc succeed *)
  Definition update_symmetry_state (ok : bool) (d : symdata A) : outcome (symdata A) :=
    if negb (sd_changes d) || states_equal (sd_cur d) (sd_pend d) then Ok d
    else
      let* required := num_matrices_required (sd_pend d) in
      let (good, d) := if sd_num d <? required then allocate_matrices ok d required else (true, d) in
      if negb good then Ok d
      else
        let s := sd_pend d in
        let* filled := fill_matrices s (sd_mats d) in
        match filled with
        | None => Ok (mkSymData s (sd_pend d) (sd_changes d) (sd_active d) (sd_num d) (sd_mats d))
        | Some ms =>
            let* ms := ofold (fun ms i => let* m := get_mat ms i in set_mat ms i (translate m (s_cx s) (s_cy s)))
                             (zrange 0 (Z.to_nat required)) ms in
            Ok (mkSymData s (sd_pend d) false (sd_active d) (sd_num d) ms)
        end.

  (* symmetry_state_default, 58-63; mypaint_default_symmetry_data, 123-138 *)
  Definition default_symmetry_data (ok : bool) : outcome (symdata A) :=
    let zero := nofZ 0 in
    let d := mkSymData (mkSym (OtherType (-1)) zero zero zero 0) (mkSym Vertical zero zero zero 2) true false 16 None in
    let (good, d) := allocate_matrices ok d 16 in
    if good then update_symmetry_state ok d else Ok d.

  (* mypaint_symmetry_set_pending, 148-161 *)
  Definition set_pending (d : symdata A) (active : bool) (cx cy angle : A) (ty : symtype) (lines : Z) : symdata A :=
    mkSymData (sd_cur d) (mkSym ty cx cy angle (fl (Z.max 2 lines))) true active (sd_num d) (sd_mats d).

  (** ** The symmetry pass of draw_dab, mypaint-tiled-surface.c 716-796 *)

  (** one call of draw_dab_internal: position, angle, index of the rectangle *)
  Record extra := mkExtra { e_x : A; e_y : A; e_angle : A; e_box : Z }.

  (* 765: MAX(1, (float)num_lines * 2.0 / num_bboxes), a double rounded to float *)
  Definition per_bbox_snow (lines boxes : Z) : f32 :=
    let q := ddiv (dmul (d_of_Z lines) (d_of_Z 2)) (d_of_Z boxes) in
    f_of_d (if dlt q (d_of_Z 1) then d_of_Z 1 else q).
  (* 785: MAX(1, (float)(num_lines * k) / num_bboxes) *)
  Definition per_bbox_rot (k lines boxes : Z) : f32 :=
    let q := fdiv (f_of_Z (fl (k * lines))) (f_of_Z boxes) in
    if flt q (f_of_Z 1) then f_of_Z 1 else q.
  (* MIN(roundf(dab_count / dabs_per_bbox), num_bboxes - 1) *)
  Definition box_slot (per : f32) (boxes i : Z) : f32 :=
    let r := froundf (fdiv (f_of_Z i) per) in
    let k := f_of_Z (boxes - 1) in
    if flt r k then r else k.

  (* one transformed dab *)
  Definition extra_dab (ms : option (list (option (mat A)))) (i : Z) (x y angle : A) (box : Z) : outcome extra :=
    let* m := get_mat ms i in
    let (x', y') := transform_point m x y in
    Ok (mkExtra x' y' angle box).

  Definition rotation_dabs (k : Z) (d : symdata A) (boxes : Z) (x y angle : A) : outcome (list extra) :=
    let s := sd_cur d in
    let per := per_bbox_rot k (s_lines s) boxes in
    ofold (fun l i =>
             let* box := f_to_int (box_slot per boxes i) in
             let* e := extra_dab (sd_mats d) (i - 1) x y (nsub angle (nmul (nofZ i) (turn_part_deg G (s_lines s)))) box in
             Ok (l ++ [e]))
          (upto 1 (s_lines s)) [].

  Definition snowflake_dabs (d : symdata A) (boxes : Z) (x y angle : A) : outcome (list extra) :=
    let s := sd_cur d in
    let* offset := int_val (if boxes / 2 <? s_lines s then boxes / 2 else s_lines s) in
    let per := per_bbox_snow (s_lines s) boxes in
    let* base_idx := int_val (fl (s_lines s - 1)) in
    let base_angle := nsub (nmul (nofZ (-2)) (s_angle s)) angle in
    ofold (fun l i =>
             let* box := f_to_int (fadd (f_of_Z offset) (box_slot per boxes i)) in
             let* e := extra_dab (sd_mats d) (base_idx + i) x y
                         (nsub base_angle (nmul (nofZ i) (turn_part_deg G (s_lines s)))) box in
             Ok (l ++ [e]))
          (upto 0 (s_lines s)) [].

  (* 716-796: the extra dabs in drawing order and num_bboxes_used (before the
     last MIN); nothing when inactive or without matrices *)
  Definition symmetry_pass (d : symdata A) (boxes : Z) (x y angle : A) : outcome (list extra * Z) :=
    let s := sd_cur d in
    if sd_active d && negb (sd_num d =? 0) then
      match s_type s with
      | Vertical =>
          let* e := extra_dab (sd_mats d) 0 x y (mirror_deg G (nadd (nofZ 90) (s_angle s)) angle) 1 in
          Ok ([e], 2)
      | Horizontal =>
          let* e := extra_dab (sd_mats d) 0 x y (mirror_deg G (s_angle s) angle) 1 in
          Ok ([e], 2)
      | VertHorz =>
          let* e1 := extra_dab (sd_mats d) 0 x y (mirror_deg G (s_angle s) angle) 1 in
          let* e2 := extra_dab (sd_mats d) 1 x y angle 2 in
          let* e3 := extra_dab (sd_mats d) 2 x y (mirror_deg G (s_angle s) angle) 3 in
          Ok ([e1; e2; e3], 4)
      | Snowflake =>
          let* l1 := snowflake_dabs d boxes x y angle in
          let* l2 := rotation_dabs 2 d boxes x y angle in
          let used := Z.min boxes (fl (s_lines s * 2)) in
          Ok (l1 ++ l2, Z.min boxes (Z.max (s_lines s) used))
      | Rotational =>
          let* l := rotation_dabs 1 d boxes x y angle in
          Ok (l, Z.min boxes (Z.max (s_lines s) 1))
      | OtherType _ => Ok ([], 1)
      end
    else Ok ([], 1).
End Symmetry.
Arguments mkExtra {A}. Arguments e_x {A}. Arguments e_y {A}. Arguments e_angle {A}. Arguments e_box {A}.
