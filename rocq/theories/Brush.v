(** mypaint-brush.c: the brush engine (everything but JSON loading, see Json.v,
    and reference counts, see Refcount.v).

    Written over a pair of arithmetics ([mixed], Color.v): [mix64] is C floats
    and doubles, bit for bit; [mixR] is exact real arithmetic.  Parameters:
    - [mathlib]: the C library functions that are not determined by IEEE 754
      (and the few that are but need no axioms here), as arbitrary functions;
    - [env]: the random generator and the surface behind the brush, as arbitrary
      state machines.
    Not modelled: printing, allocation failure, [print_inputs]. *)
From Verif Require Import Base F32 Arith Color Mapping Settings Spectral.
Local Open Scope Z_scope.

(** [let! x := e in f] is [let x := e in f]; written with a function so that
    proofs about long sequences of assignments can go step by step. *)
Definition pass {A B : Type} (e : A) (f : A -> B) : B := f e.
Notation "'let!' x ':=' e1 'in' e2" := (pass e1 (fun x => e2))
  (at level 200, x name, e1 at level 100, e2 at level 200, right associativity).

Record mathlib (M : mixed) := mkMath {
  m_pi : dbl M;                              (* M_PI *)
  expf_ : sng M -> sng M;
  logf_ : sng M -> sng M;
  log_ : dbl M -> dbl M;
  powf_ : sng M -> sng M -> sng M;
  hypotf_ : sng M -> sng M -> sng M;
  hypot_ : dbl M -> dbl M -> dbl M;
  atan2f_ : sng M -> sng M -> sng M;
  atan2_ : dbl M -> dbl M -> dbl M;
  cos_ : dbl M -> dbl M;
  sin_ : dbl M -> dbl M;
  sqrt_ : dbl M -> dbl M;
  fmodf_ : sng M -> sng M -> sng M;
  roundf_ : sng M -> sng M;
  fabsf_ : sng M -> sng M;
  negf_ : sng M -> sng M;                    (* unary minus on float *)
  negd_ : dbl M -> dbl M;                    (* unary minus on double *)
  finitef_ : sng M -> bool;                  (* isfinite *)
  nanf_ : sng M -> bool                      (* isnan *)
}.
Arguments m_pi {M}. Arguments expf_ {M}. Arguments logf_ {M}. Arguments log_ {M}. Arguments powf_ {M}.
Arguments hypotf_ {M}. Arguments hypot_ {M}. Arguments atan2f_ {M}. Arguments atan2_ {M}.
Arguments cos_ {M}. Arguments sin_ {M}. Arguments sqrt_ {M}. Arguments fmodf_ {M}. Arguments roundf_ {M}.
Arguments fabsf_ {M}. Arguments negf_ {M}. Arguments negd_ {M}. Arguments finitef_ {M}. Arguments nanf_ {M}.

(** The arguments of mypaint_surface_draw_dab, mypaint-surface.c 31-66. *)
Record dab (M : mixed) := mkDab {
  dab_x : sng M; dab_y : sng M; dab_radius : sng M;
  dab_r : sng M; dab_g : sng M; dab_b : sng M;
  dab_opaque : sng M; dab_hardness : sng M; dab_softness : sng M; dab_alpha_eraser : sng M;
  dab_aspect : sng M; dab_angle : sng M; dab_lock_alpha : sng M; dab_colorize : sng M;
  dab_posterize : sng M; dab_posterize_num : sng M; dab_paint : sng M }.
Arguments mkDab {M}. Arguments dab_x {M}. Arguments dab_y {M}. Arguments dab_radius {M}.
Arguments dab_r {M}. Arguments dab_g {M}. Arguments dab_b {M}. Arguments dab_opaque {M}.
Arguments dab_hardness {M}. Arguments dab_softness {M}. Arguments dab_alpha_eraser {M}.
Arguments dab_aspect {M}. Arguments dab_angle {M}. Arguments dab_lock_alpha {M}.
Arguments dab_colorize {M}. Arguments dab_posterize {M}. Arguments dab_posterize_num {M}.
Arguments dab_paint {M}.

Record env (M : mixed) := mkEnv {
  e_rng : Type;
  e_next : e_rng -> outcome (dbl M * e_rng);                        (* rng_double_next *)
  e_surf : Type;
  e_draw : e_surf -> dab M -> outcome (bool * e_surf);              (* mypaint_surface_draw_dab *)
  (* mypaint_surface_get_color: x, y, radius, paint *)
  e_get : e_surf -> sng M -> sng M -> sng M -> sng M -> outcome (rgba M * e_surf)
}.
Arguments e_rng {M}. Arguments e_next {M}. Arguments e_surf {M}. Arguments e_draw {M}. Arguments e_get {M}.

Section Brush.
  Context {M : mixed} (L : mathlib M) {E : env M}.
  Notation S := (car (sng M)).
  Notation D := (car (dbl M)).
  Notation d z := (@nofZ (dbl M) z).
  Notation s z := (@nofZ (sng M) z).
  Notation W := (@wid M).
  Notation N := (@nar M).
  Notation fl n k := (@nar M (@dec M n k)).
  Notation "a +f b" := (@nadd (sng M) a b) (at level 50, left associativity).
  Notation "a -f b" := (@nsub (sng M) a b) (at level 50, left associativity).
  Notation "a *f b" := (@nmul (sng M) a b) (at level 40, left associativity).
  Notation "a /f b" := (@ndiv (sng M) a b) (at level 40, left associativity).
  Notation "a +d b" := (@nadd (dbl M) a b) (at level 50, left associativity).
  Notation "a -d b" := (@nsub (dbl M) a b) (at level 50, left associativity).
  Notation "a *d b" := (@nmul (dbl M) a b) (at level 40, left associativity).
  Notation "a /d b" := (@ndiv (dbl M) a b) (at level 40, left associativity).
  Notation "a <d b" := (@nlt (dbl M) a b) (at level 70).
  Notation "a <f b" := (@nlt (sng M) a b) (at level 70).
  Notation "a <=d b" := (@nle (dbl M) a b) (at level 70).
  Notation "a <=f b" := (@nle (sng M) a b) (at level 70).
  Declare Scope f_scope.
  Delimit Scope f_scope with f.
  Notation "- a" := (negf_ L a) : f_scope.
  Notation cmax := (cmax M).

  (* a float used as a condition *)
  Definition truthy (x : S) : bool := negb (neqb x (s 0)).
  (* RADIANS and DEGREES, mypaint-brush.c 48-50 *)
  Definition radians (x : S) : D := W x *d m_pi L /d d 180.
  Definition degrees (x : D) : D := x /d (d 2 *d m_pi L) *d d 360.
  (* 52-55 *)
  Definition ACTUAL_RADIUS_MIN : D := dec 2 10.
  Definition GRID_SIZE : D := d 256.
  (* CLAMP(x, low, high) with double bounds *)
  Definition clampd (x : S) (lo hi : D) : S := N (if hi <d W x then hi else if W x <d lo then lo else W x).
  (* CLAMP(x, ACTUAL_RADIUS_MIN, ACTUAL_RADIUS_MAX): the upper bound is an int *)
  Definition clamp_radius (x : S) : S :=
    N (if s 1000 <f x then d 1000 else if W x <d ACTUAL_RADIUS_MIN then ACTUAL_RADIUS_MIN else W x).

  (* struct MyPaintBrush, 85-126.  Memory of the smudge buckets is [None] when
     the pointer is NULL. *)
  Record brush := mkBrush {
    b_painting : D;                      (* stroke_total_painting_time *)
    b_idling : D;                        (* stroke_current_idling_time *)
    b_states : list S;
    b_buckets : option (list S);
    b_nbuckets : Z;
    b_minb : Z; b_maxb : Z;              (* min_bucket_used, max_bucket_used *)
    b_random : D;                        (* random_input *)
    b_skip : S; b_skip_x : S; b_skip_y : S; b_skipped : S;
    b_rng : e_rng E;
    b_settings : list (mapping (sng M));
    b_values : list S;                   (* settings_value *)
    b_gamma : S * S; b_m : S * S; b_q : S * S;   (* speed_mapping_* *)
    b_reset : bool                       (* reset_requested *)
  }.

  Definition with_states (b : brush) (l : list S) : brush :=
    mkBrush (b_painting b) (b_idling b) l (b_buckets b) (b_nbuckets b) (b_minb b) (b_maxb b) (b_random b)
      (b_skip b) (b_skip_x b) (b_skip_y b) (b_skipped b) (b_rng b) (b_settings b) (b_values b)
      (b_gamma b) (b_m b) (b_q b) (b_reset b).
  Definition with_values (b : brush) (l : list S) : brush :=
    mkBrush (b_painting b) (b_idling b) (b_states b) (b_buckets b) (b_nbuckets b) (b_minb b) (b_maxb b) (b_random b)
      (b_skip b) (b_skip_x b) (b_skip_y b) (b_skipped b) (b_rng b) (b_settings b) l
      (b_gamma b) (b_m b) (b_q b) (b_reset b).
  Definition with_rng (b : brush) (g : e_rng E) : brush :=
    mkBrush (b_painting b) (b_idling b) (b_states b) (b_buckets b) (b_nbuckets b) (b_minb b) (b_maxb b) (b_random b)
      (b_skip b) (b_skip_x b) (b_skip_y b) (b_skipped b) g (b_settings b) (b_values b)
      (b_gamma b) (b_m b) (b_q b) (b_reset b).
  Definition with_random (b : brush) (r : D) : brush :=
    mkBrush (b_painting b) (b_idling b) (b_states b) (b_buckets b) (b_nbuckets b) (b_minb b) (b_maxb b) r
      (b_skip b) (b_skip_x b) (b_skip_y b) (b_skipped b) (b_rng b) (b_settings b) (b_values b)
      (b_gamma b) (b_m b) (b_q b) (b_reset b).
  Definition with_buckets (b : brush) (m : option (list S)) (lo hi : Z) : brush :=
    mkBrush (b_painting b) (b_idling b) (b_states b) m (b_nbuckets b) lo hi (b_random b)
      (b_skip b) (b_skip_x b) (b_skip_y b) (b_skipped b) (b_rng b) (b_settings b) (b_values b)
      (b_gamma b) (b_m b) (b_q b) (b_reset b).
  Definition with_skip (b : brush) (sk x y dt : S) : brush :=
    mkBrush (b_painting b) (b_idling b) (b_states b) (b_buckets b) (b_nbuckets b) (b_minb b) (b_maxb b) (b_random b)
      sk x y dt (b_rng b) (b_settings b) (b_values b)
      (b_gamma b) (b_m b) (b_q b) (b_reset b).
  Definition with_times (b : brush) (painting idling : D) : brush :=
    mkBrush painting idling (b_states b) (b_buckets b) (b_nbuckets b) (b_minb b) (b_maxb b) (b_random b)
      (b_skip b) (b_skip_x b) (b_skip_y b) (b_skipped b) (b_rng b) (b_settings b) (b_values b)
      (b_gamma b) (b_m b) (b_q b) (b_reset b).
  Definition with_reset (b : brush) (r : bool) : brush :=
    mkBrush (b_painting b) (b_idling b) (b_states b) (b_buckets b) (b_nbuckets b) (b_minb b) (b_maxb b) (b_random b)
      (b_skip b) (b_skip_x b) (b_skip_y b) (b_skipped b) (b_rng b) (b_settings b) (b_values b)
      (b_gamma b) (b_m b) (b_q b) r.
  Definition with_settings (b : brush) (l : list (mapping (sng M))) : brush :=
    mkBrush (b_painting b) (b_idling b) (b_states b) (b_buckets b) (b_nbuckets b) (b_minb b) (b_maxb b) (b_random b)
      (b_skip b) (b_skip_x b) (b_skip_y b) (b_skipped b) (b_rng b) l (b_values b)
      (b_gamma b) (b_m b) (b_q b) (b_reset b).
  Definition with_speed (b : brush) (g m q : S * S) : brush :=
    mkBrush (b_painting b) (b_idling b) (b_states b) (b_buckets b) (b_nbuckets b) (b_minb b) (b_maxb b) (b_random b)
      (b_skip b) (b_skip_x b) (b_skip_y b) (b_skipped b) (b_rng b) (b_settings b) (b_values b)
      g m q (b_reset b).

  (* the access macros, 134-137 *)
  Definition st (b : brush) (i : nat) : S := nth i (b_states b) (s 0).
  Definition set_st (b : brush) (i : nat) (v : S) : brush := with_states b (upd (b_states b) i v).
  Definition val (b : brush) (i : nat) : S := nth i (b_values b) (s 0).
  Definition base (b : brush) (i : nat) : S :=
    match nth_error (b_settings b) i with Some m => mp_base m | None => s 0 end.
  Definition constant (b : brush) (i : nat) : bool :=
    match nth_error (b_settings b) i with Some m => mapping_is_constant m | None => true end.

  (* memset of [n] floats at offset [from] *)
  Definition clear (l : list S) (from n : Z) : outcome (list S) :=
    if (0 <=? from) && (0 <=? n) && (from + n <=? Z.of_nat (length l)) then
      Ok (firstn (Z.to_nat from) l ++ repeat (s 0) (Z.to_nat n) ++ skipn (Z.to_nat (from + n)) l)
    else UB.

  (* brush_reset, 144-167; the bucket offset [min_index] counts floats, not buckets *)
  Definition brush_reset (b : brush) : outcome brush :=
    let b := with_skip b (s 0) (s 0) (s 0) (s 0) in
    let b := with_states b (upd (repeat (s 0) STATES_COUNT) STATE_FLIP (s (-1))) in
    match b_buckets b with
    | None => Ok b
    | Some mem =>
        if negb (b_minb b =? -1) then
          let* mem := clear mem (b_minb b) ((b_maxb b - b_minb b + 1) * 9) in
          Ok (with_buckets b (Some mem) (-1) (-1))
        else Ok b
    end.

  (* mypaint_brush_reset, 302-306 *)
  Definition request_reset (b : brush) : brush := with_reset b true.

  (* mypaint_brush_new_stroke, 313-318 *)
  Definition new_stroke (b : brush) : brush := with_times b (d 0) (d 0).

  (* mypaint_brush_get_total_stroke_painting_time, 279-283 *)
  Definition total_painting_time (b : brush) : D := b_painting b.

  (* settings_base_values_have_changed, 547-579 *)
  Definition speed_mapping (b : brush) : brush :=
    let one set :=
      let gamma := expf_ L (base b set) in
      let c1 := N (log_ L (W (s 45 +f gamma))) in
      let m := fl 15 1000 *f (s 45 +f gamma) in
      let q := fl 1 2 -f m *f c1 in
      (gamma, m, q) in
    let '(g0, m0, q0) := one SET_SPEED1_GAMMA in
    let '(g1, m1, q1) := one SET_SPEED2_GAMMA in
    with_speed b (g0, g1) (m0, m1) (q0, q1).

  (* mypaint_brush_new_with_buckets, 188-231.  [junk_*] is what malloc left in the
     fields that the constructor does not set; [g] the generator with seed 1000. *)
  Definition brush_new (buckets : Z) (g : e_rng E) (junk_values junk_buckets : list S) (junk_min junk_max : Z) : outcome brush :=
    let* mem := (if 0 <? buckets then
                   let* n := int_val (buckets * 9) in
                   Ok (Some (firstn (Z.to_nat n) (junk_buckets ++ repeat (s 0) (Z.to_nat n))))
                 else Ok None) in
    let b := mkBrush (d 0) (d 0) (repeat (s 0) STATES_COUNT) mem (if 0 <? buckets then buckets else 0)
               (if 0 <? buckets then 0 else junk_min) (if 0 <? buckets then buckets - 1 else junk_max)
               (d 0) (s 0) (s 0) (s 0) (s 0) g
               (repeat (mapping_new (sng M) INPUTS_COUNT) SETTINGS_COUNT)
               (firstn SETTINGS_COUNT (junk_values ++ repeat (s 0) SETTINGS_COUNT))
               (s 0, s 0) (s 0, s 0) (s 0, s 0) true in
    let* b := brush_reset b in
    Ok (speed_mapping (new_stroke b)).

  (* the asserts on ids: unsigned enum compared with the count *)
  Definition setting_of (b : brush) (id : Z) : outcome (mapping (sng M)) :=
    if (0 <=? id) && (id <? Z.of_nat SETTINGS_COUNT) then
      match nth_error (b_settings b) (Z.to_nat id) with Some m => Ok m | None => UB end
    else Abort.

  (* mypaint_brush_set_base_value, 325-332, get_base_value 339-344 *)
  Definition set_base_value (b : brush) (id : Z) (v : S) : outcome brush :=
    let* m := setting_of b id in
    Ok (speed_mapping (with_settings b (upd (b_settings b) (Z.to_nat id) (mapping_set_base m v)))).
  Definition get_base_value (b : brush) (id : Z) : outcome S :=
    let* m := setting_of b id in Ok (mp_base m).

  (* mypaint_brush_set_mapping_n, 351-356 *)
  Definition set_mapping_n (b : brush) (id input n : Z) : outcome brush :=
    let* m := setting_of b id in
    let* m := mapping_set_n m input n in
    Ok (with_settings b (upd (b_settings b) (Z.to_nat id) m)).
  (* mypaint_brush_get_mapping_n, 363-367 (no assert: a bad id reads outside the array) *)
  Definition get_mapping_n (b : brush) (id input : Z) : outcome Z :=
    if id <? 0 then UB
    else match nth_error (b_settings b) (Z.to_nat id) with
         | Some m => mapping_get_n m input
         | None => UB
         end.
  (* mypaint_brush_is_constant 374-379, get_inputs_used_n 386-391 *)
  Definition is_constant (b : brush) (id : Z) : outcome bool :=
    let* m := setting_of b id in Ok (mapping_is_constant m).
  Definition inputs_used_n (b : brush) (id : Z) : outcome Z :=
    let* m := setting_of b id in Ok (mapping_inputs_used m).
  (* mypaint_brush_set_mapping_point, 399-404, get_mapping_point 413-418 *)
  Definition set_mapping_point (b : brush) (id input index : Z) (x y : S) : outcome brush :=
    let* m := setting_of b id in
    let* m := mapping_set_point m input index x y in
    Ok (with_settings b (upd (b_settings b) (Z.to_nat id) m)).
  Definition get_mapping_point (b : brush) (id input index : Z) : outcome (S * S) :=
    let* m := setting_of b id in mapping_get_point m input index.

  (* mypaint_brush_get_state 426-431, set_state 439-444 *)
  Definition get_state (b : brush) (i : Z) : outcome S :=
    if (0 <=? i) && (i <? Z.of_nat STATES_COUNT) then Ok (st b (Z.to_nat i)) else Abort.
  Definition set_state (b : brush) (i : Z) (v : S) : outcome brush :=
    if (0 <=? i) && (i <? Z.of_nat STATES_COUNT) then Ok (set_st b (Z.to_nat i) v) else Abort.

  (* nine consecutive floats, the layout of a bucket: SMUDGE_R, _G, _B, _A,
     PREV_COL_R, _G, _B, _A, PREV_COL_RECENTNESS, 58-63 *)
  Record bucket := mkBucket { bk_smudge : rgba M; bk_prev : rgba M; bk_recent : S }.
  Definition bucket_list (k : bucket) : list S :=
    let '(r, g, bl, a) := bk_smudge k in let '(pr, pg, pb, pa) := bk_prev k in
    [r; g; bl; a; pr; pg; pb; pa; bk_recent k].
  Definition read9 (l : list S) (off : Z) : outcome bucket :=
    if off <? 0 then UB
    else match firstn 9 (skipn (Z.to_nat off) l) with
         | [r; g; bl; a; pr; pg; pb; pa; rc] => Ok (mkBucket (r, g, bl, a) (pr, pg, pb, pa) rc)
         | _ => UB
         end.
  Definition write9 (l : list S) (off : Z) (k : bucket) : outcome (list S) :=
    if (0 <=? off) && (off + 9 <=? Z.of_nat (length l)) then
      Ok (firstn (Z.to_nat off) l ++ bucket_list k ++ skipn (Z.to_nat off + 9) l)
    else UB.

  (* mypaint_brush_set_smudge_bucket_state, 454-475, get_smudge_bucket_state
     486-508; the address is &smudge_buckets[bucket_index] *)
  Definition set_bucket_state (b : brush) (i : Z) (k : bucket) : outcome (bool * brush) :=
    if i <? b_nbuckets b then
      match b_buckets b with
      | None => UB
      | Some mem => let* mem := write9 mem i k in Ok (true, with_buckets b (Some mem) (b_minb b) (b_maxb b))
      end
    else Ok (false, b).
  Definition get_bucket_state (b : brush) (i : Z) : outcome (option bucket) :=
    if i <? b_nbuckets b then
      match b_buckets b with
      | None => UB
      | Some mem => let* k := read9 mem i in Ok (Some k)
      end
    else Ok None.

  (* 516-519, 528-531 *)
  Definition min_bucket_used (b : brush) : Z := b_minb b.
  Definition max_bucket_used (b : brush) : Z := b_maxb b.

  (* exp_decay, 535-544 *)
  Definition exp_decay (T_const t : S) : S :=
    if W T_const <=d dec 1 1000 then s 0 else expf_ L ((- t)%f /f T_const).
  (* the filter factor 1.0 - exp_decay(..) used all over *)
  Definition filter_fac (T_const t : S) : S := N (d 1 -d W (exp_decay T_const t)).
  (* x += (target - x) * fac *)
  Definition approach (b : brush) (i : nat) (target fac : S) : brush :=
    set_st b i (st b i +f (target -f st b i) *f fac).

  (* rand_gauss, helpers.c 62-70 *)
  Definition rand_gauss (g : e_rng E) : outcome (S * e_rng E) :=
    let* (r1, g) := e_next E g in
    let* (r2, g) := e_next E g in
    let* (r3, g) := e_next E g in
    let* (r4, g) := e_next E g in
    let sum := d 0 +d r1 +d r2 +d r3 +d r4 in
    Ok (N (sum *d dec 173205080757 100000000000 -d dec 346410161514 100000000000), g).

  (* MAX(0.0, x) *)
  Definition pos (x : S) : S := if W x <d d 0 then s 0 else x.

  (* directional_offsets, 586-664 *)
  Definition directional_offsets (b : brush) (base_radius : S) (flip : Z) : S * S :=
    let offset_mult := expf_ L (val b SET_OFFSET_MULTIPLIER) in
    if negb (finitef_ L offset_mult) then (s 0, s 0)
    else
      let adj := val b SET_OFFSET_ANGLE_ADJ in
      (* dx += cos(angle) * factor; dy += sin(angle) * factor, if [on] *)
      let add on ang_x ang_y factor p :=
        if truthy on then
          (N (W (fst p) +d cos_ L ang_x *d W factor), N (W (snd p) +d sin_ L ang_y *d W factor))
        else p in
      let p := (val b SET_OFFSET_X, val b SET_OFFSET_Y) in
      let angle_deg := fmodf_ L (N (degrees (W (atan2f_ L (st b STATE_DIRECTION_ANGLE_DY) (st b STATE_DIRECTION_ANGLE_DX)))
                                    -d d 90)) (s 360) in
      let offset_angle := val b SET_OFFSET_ANGLE in
      let dir_angle := N (radians (angle_deg +f adj)) in
      let p := add offset_angle (W dir_angle) (W dir_angle) offset_angle p in
      let view_rotation := st b STATE_VIEWROTATION in
      let offset_asc := val b SET_OFFSET_ANGLE_ASC in
      let ascension := st b STATE_ASCENSION in
      let asc_angle := N (radians (ascension -f view_rotation +f adj)) in
      let p := add offset_asc (W asc_angle) (W asc_angle) offset_asc p in
      let view_offset := val b SET_OFFSET_ANGLE_VIEW in
      let view_angle := N (radians (view_rotation +f adj)) in
      let p := add view_offset (W (- view_angle)%f) (W (- view_angle)%f) view_offset p in
      let dir_mirror := pos (val b SET_OFFSET_ANGLE_2) in
      let dir_mirror_angle := N (radians (angle_deg +f adj *f s flip)) in
      let p := add dir_mirror (W dir_mirror_angle) (W dir_mirror_angle) (dir_mirror *f s flip) p in
      let asc_mirror := pos (val b SET_OFFSET_ANGLE_2_ASC) in
      let asc_mirror_angle := N (radians (ascension -f view_rotation +f adj *f s flip)) in
      let p := add asc_mirror (W asc_mirror_angle) (W asc_mirror_angle) (s flip *f asc_mirror) p in
      let view_mirror := pos (val b SET_OFFSET_ANGLE_2_VIEW) in
      let view_mirror_angle := N (radians (view_rotation +f adj)) in
      let p := add view_mirror (W (- view_mirror_angle)%f) (W (- view_mirror_angle)%f) (s flip *f view_mirror) p in
      let lim := s 3240 in
      let base_mul := base_radius *f offset_mult in
      let clamp x := if lim <f x then lim else if x <f (- lim)%f then (- lim)%f else x in
      (clamp (fst p *f base_mul), clamp (snd p *f base_mul)).

  (* 751-753: self->settings_value[i] = mypaint_mapping_calculate(..) for every i *)
  Fixpoint calculate_all (ms : list (mapping (sng M))) (inputs : list S) : outcome (list S) :=
    match ms with
    | [] => Ok []
    | m :: ms => let* v := mapping_calculate m inputs in let* vs := calculate_all ms inputs in Ok (v :: vs)
    end.

  (** the parameters of a simulation step *)
  Record step := mkStep {
    sp_ddab : S; sp_dx : S; sp_dy : S; sp_dpressure : S; sp_declination : S; sp_ascension : S; sp_dtime : S;
    sp_viewzoom : S; sp_viewrotation : S; sp_declinationx : S; sp_declinationy : S; sp_barrel : S }.

  (* 710-716 *)
  Definition step_time (t : S) : S :=
    if W t <d d 0 then fl 1 1000 else if neqb (W t) (d 0) then fl 1 1000 else t.

  (* update_states_and_setting_values up to line 781: the states that follow the
     pen, view and stroke start *)
  Definition step_pen (b : brush) (p : step) : brush :=
    let! b := set_st b STATE_X (st b STATE_X +f sp_dx p) in
    let! b := set_st b STATE_Y (st b STATE_Y +f sp_dy p) in
    let! b := set_st b STATE_PRESSURE (st b STATE_PRESSURE +f sp_dpressure p) in
    let! b := set_st b STATE_DECLINATION (st b STATE_DECLINATION +f sp_declination p) in
    let! b := set_st b STATE_ASCENSION (st b STATE_ASCENSION +f sp_ascension p) in
    let! b := set_st b STATE_DECLINATIONX (st b STATE_DECLINATIONX +f sp_declinationx p) in
    let! b := set_st b STATE_DECLINATIONY (st b STATE_DECLINATIONY +f sp_declinationy p) in
    let! b := set_st b STATE_VIEWZOOM (sp_viewzoom p) in
    let! viewrotation :=
      N (W (mod_arith M (N (degrees (W (sp_viewrotation p)) +d d 180)) (s 360)) -d d 180) in
    let! b := set_st b STATE_VIEWROTATION viewrotation in
    (* Gridmap state update *)
    let! x := st b STATE_ACTUAL_X in
    let! y := st b STATE_ACTUAL_Y in
    let! scale := expf_ L (val b SET_GRIDMAP_SCALE) in
    let! scaled_size := N (W scale *d GRID_SIZE) in
    let! grid := fun v sc => N (W (mod_arith M (fabsf_ L (v *f sc)) scaled_size /f scaled_size) *d GRID_SIZE) in
    let! b := set_st b STATE_GRIDMAP_X (grid x (val b SET_GRIDMAP_SCALE_X)) in
    let! b := set_st b STATE_GRIDMAP_Y (grid y (val b SET_GRIDMAP_SCALE_Y)) in
    let! b := if W x <d d 0 then set_st b STATE_GRIDMAP_X (N (GRID_SIZE -d W (st b STATE_GRIDMAP_X))) else b in
    let! b := if W y <d d 0 then set_st b STATE_GRIDMAP_Y (N (GRID_SIZE -d W (st b STATE_GRIDMAP_Y))) else b in
    let! b := set_st b STATE_BARREL_ROTATION (st b STATE_BARREL_ROTATION +f sp_barrel p) in
    let! b := if W (st b STATE_PRESSURE) <=d d 0 then set_st b STATE_PRESSURE (s 0) else b in
    let! pressure := st b STATE_PRESSURE in
    (* start / end stroke *)
    let! lim := fl 1 10000 in
    let! threshold := base b SET_STROKE_THRESHOLD in
    let! started := st b STATE_STROKE_STARTED in
    if negb (truthy started) && (threshold +f lim <f pressure) then
      set_st (set_st b STATE_STROKE_STARTED (s 1)) STATE_STROKE (s 0)
    else if truthy started && (W pressure <=d W threshold *d dec 9 10 +d W lim) then
      set_st b STATE_STROKE_STARTED (s 0)
    else b.

  (* 786-792: speed and distance of the step *)
  Definition norm_dx (b : brush) (p : step) : S := sp_dx p /f step_time (sp_dtime p) *f st b STATE_VIEWZOOM.
  Definition norm_dy (b : brush) (p : step) : S := sp_dy p /f step_time (sp_dtime p) *f st b STATE_VIEWZOOM.
  Definition norm_dist (b : brush) (p : step) : S :=
    let t := step_time (sp_dtime p) in
    let base_radius := expf_ L (base b SET_RADIUS_LOGARITHMIC) in
    hypotf_ L (sp_dx p /f t /f base_radius) (sp_dy p /f t /f base_radius) *f t.

  (* 794-830: the inputs of the dynamics, in the order of MyPaintBrushInput;
     [b] is the brush after [step_pen] *)
  Definition step_inputs (b : brush) : list S :=
    let pressure := st b STATE_PRESSURE in
    let viewrotation := st b STATE_VIEWROTATION in
    let base_radius := expf_ L (base b SET_RADIUS_LOGARITHMIC) in
    let speed gamma m q slow := N (log_ L (W (gamma +f slow)) *d W m +d W q) in
    let dir_angle := atan2f_ L (st b STATE_DIRECTION_DY) (st b STATE_DIRECTION_DX) in
    let dir_angle_360 := atan2f_ L (st b STATE_DIRECTION_ANGLE_DY) (st b STATE_DIRECTION_ANGLE_DX) in
    [ (* pressure *) pressure *f expf_ L (base b SET_PRESSURE_GAIN_LOG);
      (* random *) N (b_random b);
      (* stroke *) (if W (st b STATE_STROKE) <d d 1 then st b STATE_STROKE else s 1);
      (* direction *) mod_arith M (N (degrees (W dir_angle) +d W viewrotation +d d 180)) (s 180);
      (* tilt_declination *) st b STATE_DECLINATION;
      (* tilt_ascension *)
      N (W (mod_arith M (N (W (st b STATE_ASCENSION +f viewrotation) +d d 180)) (s 360)) -d d 180);
      (* speed1 *) speed (fst (b_gamma b)) (fst (b_m b)) (fst (b_q b)) (st b STATE_NORM_SPEED1_SLOW);
      (* speed2 *) speed (snd (b_gamma b)) (snd (b_m b)) (snd (b_q b)) (st b STATE_NORM_SPEED2_SLOW);
      (* custom *) st b STATE_CUSTOM_INPUT;
      (* direction_angle *)
      fmodf_ L (N (degrees (W dir_angle_360) +d W viewrotation +d d 360)) (s 360);
      (* attack_angle *)
      smallest_angular_difference M (st b STATE_ASCENSION)
        (mod_arith M (N (degrees (W dir_angle_360) +d d 90)) (s 360));
      (* tilt_declinationx *) st b STATE_DECLINATIONX;
      (* tilt_declinationy *) st b STATE_DECLINATIONY;
      (* gridmap_x *) clampd (st b STATE_GRIDMAP_X) (d 0) GRID_SIZE;
      (* gridmap_y *) clampd (st b STATE_GRIDMAP_Y) (d 0) GRID_SIZE;
      (* viewzoom *) base b SET_RADIUS_LOGARITHMIC -f logf_ L (base_radius /f st b STATE_VIEWZOOM);
      (* brush_radius *) base b SET_RADIUS_LOGARITHMIC;
      (* barrel_rotation *) mod_arith M (st b STATE_BARREL_ROTATION) (s 360) ].

  Definition sqr (x : S) : S := x *f x.

  (* 843-903: the low-pass filters and the final radius; [b] has the new setting
     values *)
  Definition step_filters (b : brush) (p : step) : brush :=
    let! t := step_time (sp_dtime p) in
    let! ndx := norm_dx b p in
    let! ndy := norm_dy b p in
    let! norm_speed := hypotf_ L ndx ndy in
    let! ndist := norm_dist b p in
    let! viewrotation := st b STATE_VIEWROTATION in
    let! b := set_st b STATE_DABS_PER_BASIC_RADIUS (val b SET_DABS_PER_BASIC_RADIUS) in
    let! b := set_st b STATE_DABS_PER_ACTUAL_RADIUS (val b SET_DABS_PER_ACTUAL_RADIUS) in
    let! b := set_st b STATE_DABS_PER_SECOND (val b SET_DABS_PER_SECOND) in
    (* slow tracking per dab *)
    let! fac := filter_fac (val b SET_SLOW_TRACKING_PER_DAB) (sp_ddab p) in
    let! b := approach b STATE_ACTUAL_X (st b STATE_X) fac in
    let! b := approach b STATE_ACTUAL_Y (st b STATE_Y) fac in
    (* slow speed *)
    let! b := approach b STATE_NORM_SPEED1_SLOW norm_speed (filter_fac (val b SET_SPEED1_SLOWNESS) t) in
    let! b := approach b STATE_NORM_SPEED2_SLOW norm_speed (filter_fac (val b SET_SPEED2_SLOWNESS) t) in
    (* slow speed, as a vector *)
    let! tc := N (W (expf_ L (N (W (val b SET_OFFSET_BY_SPEED_SLOWNESS) *d dec 1 100))) -d d 1) in
    let! tc := if W tc <d dec 2 1000 then fl 2 1000 else tc in
    let! fac := filter_fac tc t in
    let! b := approach b STATE_NORM_DX_SLOW ndx fac in
    let! b := approach b STATE_NORM_DY_SLOW ndy fac in
    (* orientation *)
    let! dx := sp_dx p *f st b STATE_VIEWZOOM in
    let! dy := sp_dy p *f st b STATE_VIEWZOOM in
    let! fac := filter_fac (N (W (expf_ L (N (W (val b SET_DIRECTION_FILTER) *d dec 1 2))) -d d 1)) (hypotf_ L dx dy) in
    let! dx_old := st b STATE_DIRECTION_DX in
    let! dy_old := st b STATE_DIRECTION_DY in
    let! b := approach b STATE_DIRECTION_ANGLE_DX dx fac in
    let! b := approach b STATE_DIRECTION_ANGLE_DY dy fac in
    let! opposite := sqr (dx_old -f (- dx)%f) +f sqr (dy_old -f (- dy)%f) <f sqr (dx_old -f dx) +f sqr (dy_old -f dy) in
    let! dx' := if opposite then (- dx)%f else dx in
    let! dy' := if opposite then (- dy)%f else dy in
    let! b := approach b STATE_DIRECTION_DX dx' fac in
    let! b := approach b STATE_DIRECTION_DY dy' fac in
    (* custom input *)
    let! b := approach b STATE_CUSTOM_INPUT (val b SET_CUSTOM_INPUT)
               (filter_fac (val b SET_CUSTOM_INPUT_SLOWNESS) (fl 1 10)) in
    (* stroke length *)
    let! frequency := expf_ L (- val b SET_STROKE_DURATION_LOGARITHMIC)%f in
    let! stroke := cmax (s 0) (st b STATE_STROKE +f ndist *f frequency) in
    let! wrap := N (d 1 +d W (cmax (s 0) (val b SET_STROKE_HOLDTIME))) in
    let! b :=
      if (wrap <=f stroke) && (dec 99 10 +d d 1 <d W wrap) then set_st b STATE_STROKE (s 1)
      else if wrap <=f stroke then set_st b STATE_STROKE (fmodf_ L stroke wrap)
      else set_st b STATE_STROKE stroke in
    (* final radius *)
    let! b := set_st b STATE_ACTUAL_RADIUS (expf_ L (val b SET_RADIUS_LOGARITHMIC)) in
    let! b := if W (st b STATE_ACTUAL_RADIUS) <d ACTUAL_RADIUS_MIN
             then set_st b STATE_ACTUAL_RADIUS (N ACTUAL_RADIUS_MIN) else b in
    let! b := if s 1000 <f st b STATE_ACTUAL_RADIUS then set_st b STATE_ACTUAL_RADIUS (s 1000) else b in
    let! b := set_st b STATE_ACTUAL_ELLIPTICAL_DAB_RATIO (val b SET_ELLIPTICAL_DAB_RATIO) in
    set_st b STATE_ACTUAL_ELLIPTICAL_DAB_ANGLE
      (N (W (mod_arith M (N (W (val b SET_ELLIPTICAL_DAB_ANGLE -f viewrotation) +d d 180)) (s 180)) -d d 180)).

  (* update_states_and_setting_values, 708-904 *)
  Definition update_states (b : brush) (p : step) : outcome brush :=
    let b := step_pen b p in
    let* vs := calculate_all (b_settings b) (step_inputs b) in
    Ok (step_filters (with_values b vs) p).

  (** where fetch_smudge_bucket points: into the states, or into the buckets *)
  Inductive place := InStates | InBuckets (off : Z).
  Definition read_place (b : brush) (pl : place) : outcome bucket :=
    match pl with
    | InStates => read9 (b_states b) (Z.of_nat STATE_SMUDGE_RA)
    | InBuckets off => match b_buckets b with Some mem => read9 mem off | None => UB end
    end.
  Definition write_place (b : brush) (pl : place) (k : bucket) : outcome brush :=
    match pl with
    | InStates => let* l := write9 (b_states b) (Z.of_nat STATE_SMUDGE_RA) k in Ok (with_states b l)
    | InBuckets off =>
        match b_buckets b with
        | Some mem => let* mem := write9 mem off k in Ok (with_buckets b (Some mem) (b_minb b) (b_maxb b))
        | None => UB
        end
    end.

  (* fetch_smudge_bucket, 906-918 *)
  Definition fetch_bucket (b : brush) : outcome (place * brush) :=
    match b_buckets b with
    | None => Ok (InStates, b)
    | Some _ =>
        if b_nbuckets b =? 0 then Ok (InStates, b)
        else
          let v := roundf_ L (val b SET_SMUDGE_BUCKET) in
          let hi := s (b_nbuckets b - 1) in
          let* i := to_i (W (if hi <f v then hi else if v <f s 0 then s 0 else v)) in
          let lo := if (b_minb b =? -1) || (i <? b_minb b) then i else b_minb b in
          let up := if b_maxb b <? i then i else b_maxb b in
          let* off := int_val (i * 9) in
          Ok (InBuckets off, with_buckets b (b_buckets b) lo up)
    end.

  (** what a dab can change besides the brush: the surface, and the array that
      [mix_colors] keeps between calls *)
  Record world := mkWorld { w_surf : e_surf E; w_mix : rgba M }.

  (* update_smudge_color, 920-997; the first component tells the caller to return *)
  Definition update_smudge_color (b : brush) (w : world) (k : bucket) (smudge_length : S) (px py : Z)
             (radius : S) (legacy : bool) (paint : S) : outcome (bool * bucket * world) :=
    let update_factor := if W smudge_length <d dec 1 100 then fl 1 100 else smudge_length in
    let recentness := bk_recent k *f update_factor in
    let k := mkBucket (bk_smudge k) (bk_prev k) recentness in
    let margin := fl 1 10000000000000000 in
    let bound := W (powf_ L (N (dec 1 2 *d W update_factor)) (val b SET_SMUDGE_LENGTH_LOG) +f margin) in
    let bound := if d 1 <d bound then d 1 else bound in
    let resample := W recentness <d bound in
    let update_factor := if resample && neqb (W recentness) (d 0) then s 0 else update_factor in
    let* (early, k, sample, w) :=
      (if resample then
         let k := mkBucket (bk_smudge k) (bk_prev k) (s 1) in
         let smudge_radius := clamp_radius (radius *f expf_ L (val b SET_SMUDGE_RADIUS_LOG)) in
         let* (c, sf) := e_get E (w_surf w) (s px) (s py) smudge_radius (if legacy then s (-1) else paint) in
         let w := mkWorld sf (w_mix w) in
         let '(_, _, _, a) := c in
         let lim := val b SET_SMUDGE_TRANSPARENCY in
         if ((d 0 <d W lim) && (a <f lim)) || ((W lim <d d 0) && ((- lim)%f <f a)) then Ok (true, k, c, w)
         else Ok (false, mkBucket (bk_smudge k) c (bk_recent k), c, w)
       else Ok (false, k, bk_prev k, w)) in
    if early then Ok (true, k, w)
    else
      let '(r, g, bl, a) := sample in
      let '(sr, sg, sb, sa) := bk_smudge k in
      if legacy then
        let fac_old := update_factor in
        let fac_new := N ((d 1 -d W update_factor) *d W a) in
        let mixc o v := fac_old *f o +f fac_new *f v in
        let c := (mixc sr r, mixc sg g, mixc sb bl, clamp01 M (fac_old *f sa +f fac_new)) in
        Ok (false, mkBucket c (bk_prev k) (bk_recent k), w)
      else if WGM_EPSILON M *d d 10 <d W a then
        let c := mix_colors M (powf_ L) (w_mix w) (bk_smudge k) sample update_factor paint in
        Ok (false, mkBucket c (bk_prev k) (bk_recent k), mkWorld (w_surf w) c)
      else
        Ok (false, mkBucket (sr, sg, sb, (sa +f a) /f s 2) (bk_prev k) (bk_recent k), w).

  (* apply_smudge, 999-1035: the target alpha and the new colour *)
  Definition apply_smudge (w : world) (k : bucket) (smudge_value : S) (legacy : bool) (paint : S) (c : color M)
    : S * color M * world :=
    let '(r, g, bl) := c in
    let '(sr, sg, sb, sa) := bk_smudge k in
    let smudge_factor := if d 1 <d W smudge_value then s 1 else smudge_value in
    let target := clamp01d M ((d 1 -d W smudge_factor) +d W (smudge_factor *f sa)) in
    if s 0 <f target then
      if legacy then
        let col_factor := N (d 1 -d W smudge_factor) in
        let mixc o v := (smudge_factor *f o +f col_factor *f v) /f target in
        (target, (mixc sr r, mixc sg g, mixc sb bl), w)
      else
        let m := mix_colors M (powf_ L) (w_mix w) (bk_smudge k) (r, g, bl, s 1) smudge_factor paint in
        let '(mr, mg, mb, _) := m in
        (target, (mr, mg, mb), mkWorld (w_surf w) m)
    else (target, (s 1, s 0, s 0), w).

  (* ROUND(x), helpers.h 9 *)
  Definition round_i (x : S) : outcome Z := to_i (W x +d dec 1 2).

  (* the opacity of a dab, 1044-1072 *)
  Definition dab_opacity (b : brush) : S :=
    let opaque := clamp01 M (pos (val b SET_OPAQUE) *f val b SET_OPAQUE_MULTIPLY) in
    let lin := base b SET_OPAQUE_LINEARIZE in
    if truthy lin then
      let dpp := N (W (st b STATE_DABS_PER_ACTUAL_RADIUS +f st b STATE_DABS_PER_BASIC_RADIUS) *d d 2) in
      let dpp := if W dpp <d d 1 then s 1 else dpp in
      let dpp := N (d 1 +d W lin *d (W dpp -d d 1)) in
      let beta := N (d 1 -d W opaque) in
      let beta_dab := powf_ L beta (N (d 1 /d W dpp)) in
      N (d 1 -d W beta_dab)
    else opaque.

  (* the position of a dab, 1074-1099 *)
  Definition dab_position (b : brush) : outcome (S * S * brush) :=
    let base_radius := expf_ L (base b SET_RADIUS_LOGARITHMIC) in
    let* flip := to_i (W (st b STATE_FLIP)) in
    let offs := directional_offsets b base_radius flip in
    let x := st b STATE_ACTUAL_X +f fst offs in
    let y := st b STATE_ACTUAL_Y +f snd offs in
    let view_zoom := st b STATE_VIEWZOOM in
    let obs := val b SET_OFFSET_BY_SPEED in
    let speed v n := if truthy obs then N (W v +d W (st b n *f obs) *d dec 1 10 /d W view_zoom) else v in
    let x := speed x STATE_NORM_DX_SLOW in
    let y := speed y STATE_NORM_DY_SLOW in
    let obr := val b SET_OFFSET_BY_RANDOM in
    if truthy obr then
      let amp := pos obr in
      let* (r1, g) := rand_gauss (b_rng b) in
      let* (r2, g) := rand_gauss g in
      Ok (x +f r1 *f amp *f base_radius, y +f r2 *f amp *f base_radius, with_rng b g)
    else Ok (x, y, b).

  (* the radius of a dab and its opacity, 1101-1111 *)
  Definition dab_size (b : brush) (opaque : S) : outcome (S * S * brush) :=
    let radius := st b STATE_ACTUAL_RADIUS in
    let rbr := val b SET_RADIUS_BY_RANDOM in
    if truthy rbr then
      let* (r, g) := rand_gauss (b_rng b) in
      let noise := r *f rbr in
      let radius := clamp_radius (expf_ L (val b SET_RADIUS_LOGARITHMIC +f noise)) in
      let corr := sqr (st b STATE_ACTUAL_RADIUS /f radius) in
      Ok (radius, (if W corr <=d d 1 then opaque *f corr else opaque), with_rng b g)
    else Ok (radius, opaque, b).

  (* the colour dynamics, 1147-1196; [linear] is the argument of stroke_to *)
  Definition dab_color (b : brush) (c : color M) (linear : bool) : outcome (color M) :=
    let hsv := truthy (val b SET_CHANGE_COLOR_H) || truthy (val b SET_CHANGE_COLOR_HSV_S) || truthy (val b SET_CHANGE_COLOR_V) in
    let hsl := truthy (val b SET_CHANGE_COLOR_L) || truthy (val b SET_CHANGE_COLOR_HSL_S) in
    let gamma e (c : color M) := let '(r, g, bl) := c in (powf_ L r e, powf_ L g e, powf_ L bl e) in
    let c := if linear && (hsv || hsl) then gamma (N (d 1 /d dec 22 10)) c else c in
    let* c :=
      (if hsv then
         let '(h, sa, v) := rgb_to_hsv M c in
         let h := h +f val b SET_CHANGE_COLOR_H in
         let sa := sa +f sa *f v *f val b SET_CHANGE_COLOR_HSV_S in
         let v := v +f val b SET_CHANGE_COLOR_V in
         hsv_to_rgb M (h, sa, v)
       else Ok c) in
    let c :=
      if hsl then
        let '(h, sa, v) := rgb_to_hsl M c in
        let v := v +f val b SET_CHANGE_COLOR_L in
        let sa := sa +f sa *f cmin M (fabsf_ L (s 1 -f v)) (fabsf_ L v) *f s 2 *f val b SET_CHANGE_COLOR_HSL_S in
        hsl_to_rgb M (h, sa, v)
      else c in
    Ok (if linear && (hsv || hsl) then gamma (fl 22 10) c else c).

  (* anti-aliasing, 1202-1223: the new radius and hardness *)
  Definition anti_alias (radius hardness min_fadeout : S) : S * S :=
    let cur := N (W radius *d (d 1 -d W hardness)) in
    if cur <f min_fadeout then
      let optical := N (W radius -d (d 1 -d W hardness) *d W radius /d d 2) in
      let hardness_new := N ((W optical -d W min_fadeout /d d 2) /d (W optical +d W min_fadeout /d d 2)) in
      (N (W min_fadeout /d (d 1 -d W hardness_new)), hardness_new)
    else (radius, hardness).

  (* snap to pixel, 1225-1248 *)
  Definition snap_pixel (x y radius snap : S) : S * S * S :=
    if d 0 <d W snap then
      let snapped v := N (flo (W v) +d dec 1 2) in
      let x' := x +f (snapped x -f x) *f snap in
      let y' := y +f (snapped y -f y) *f snap in
      let sr := N (W (roundf_ L (N (W radius *d d 2))) /d d 2) in
      let sr := if W sr <d dec 1 2 then fl 1 2 else sr in
      let sr := if dec 9999 10000 <d W snap then N (W sr -d dec 1 10000) else sr in
      (x', y', radius +f (sr -f radius) *f snap)
    else (x, y, radius).

  (* prepare_and_draw_dab, 1042-1250 *)
  Definition prepare_and_draw_dab (b : brush) (w : world) (linear : bool) : outcome (bool * brush * world) :=
    let opaque := dab_opacity b in
    let* (x, y, b) := dab_position b in
    let* (radius, opaque, b) := dab_size b opaque in
    let paint := val b SET_PAINT_MODE in
    let legacy := (W paint <=d d 0) && constant b SET_PAINT_MODE in
    let* c := hsv_to_rgb M (base b SET_COLOR_H, base b SET_COLOR_S, base b SET_COLOR_V) in
    let smudge_length := val b SET_SMUDGE_LENGTH in
    let smudge_value := val b SET_SMUDGE in
    let* (early, b, w) :=
      (if (W smudge_length <d d 1) && (truthy smudge_value || negb (constant b SET_SMUDGE)) then
         let* (pl, b) := fetch_bucket b in
         let* px := round_i x in
         let* py := round_i y in
         let* k := read_place b pl in
         let* (early, k, w) := update_smudge_color b w k smudge_length px py radius legacy paint in
         let* b := write_place b pl k in
         Ok (early, b, w)
       else Ok (false, b, w)) in
    if early : bool then Ok (false, b, w)
    else
      let* (alpha, c, b, w) :=
        (if d 0 <d W smudge_value then
           let* (pl, b) := fetch_bucket b in
           let* k := read_place b pl in
           let '(alpha, c, w) := apply_smudge w k smudge_value legacy paint c in
           Ok (alpha, c, b, w)
         else Ok (s 1, c, b, w)) in
      let eraser := val b SET_ERASER in
      let alpha := if truthy eraser then N (W alpha *d (d 1 -d W eraser)) else alpha in
      let* c := dab_color b c linear in
      let hardness := clamp01 M (val b SET_HARDNESS) in
      let softness := clamp01 M (val b SET_SOFTNESS) in
      let '(radius, hardness) := anti_alias radius hardness (val b SET_ANTI_ALIASING) in
      let '(x, y, radius) := snap_pixel x y radius (val b SET_SNAP_TO_PIXEL) in
      let '(r, g, bl) := c in
      let* (painted, sf) :=
        e_draw E (w_surf w)
          (mkDab x y radius r g bl opaque hardness softness alpha
             (st b STATE_ACTUAL_ELLIPTICAL_DAB_RATIO) (st b STATE_ACTUAL_ELLIPTICAL_DAB_ANGLE)
             (val b SET_LOCK_ALPHA) (val b SET_COLORIZE) (val b SET_POSTERIZE) (val b SET_POSTERIZE_NUM) paint) in
      Ok (painted, b, mkWorld sf (w_mix w)).

  (* count_dabs_to, 1253-1287; [dt] is a float parameter *)
  Definition count_dabs_to (b : brush) (x y dt : S) : S * brush :=
    let base_radius := clamp_radius (expf_ L (base b SET_RADIUS_LOGARITHMIC)) in
    let b := if neqb (W (st b STATE_ACTUAL_RADIUS)) (d 0) then set_st b STATE_ACTUAL_RADIUS base_radius else b in
    let dx := x -f st b STATE_X in
    let dy := y -f st b STATE_Y in
    let ratio := st b STATE_ACTUAL_ELLIPTICAL_DAB_RATIO in
    let dist :=
      if d 1 <d W ratio then
        let angle_rad := N (radians (st b STATE_ACTUAL_ELLIPTICAL_DAB_ANGLE)) in
        let cs := N (cos_ L (W angle_rad)) in
        let sn := N (sin_ L (W angle_rad)) in
        let yyr := (dy *f cs -f dx *f sn) *f ratio in
        let xxr := dy *f sn +f dx *f cs in
        N (sqrt_ L (W (yyr *f yyr +f xxr *f xxr)))
      else hypotf_ L dx dy in
    let res1 := dist /f st b STATE_ACTUAL_RADIUS *f st b STATE_DABS_PER_ACTUAL_RADIUS in
    let res2 := dist /f base_radius *f st b STATE_DABS_PER_BASIC_RADIUS in
    let res3 := dt *f st b STATE_DABS_PER_SECOND in
    let res4 := res1 +f res2 +f res3 in
    ((if nanf_ L res4 || (W res4 <d d 0) then s 0 else res4), b).

  (** an event: the arguments of mypaint_brush_stroke_to *)
  Record event := mkEvent {
    ev_x : S; ev_y : S; ev_pressure : S; ev_xtilt : S; ev_ytilt : S; ev_dtime : D;
    ev_viewzoom : S; ev_viewrotation : S; ev_barrel : S; ev_linear : bool }.

  (** the pen position derived from an event: ascension, declination,
      declinationx, declinationy *)
  Record tilt := mkTilt { t_ascension : S; t_declination : S; t_declinationx : S; t_declinationy : S }.

  (* 1306-1329 *)
  Definition read_tilt (xtilt ytilt : S) : outcome tilt :=
    if truthy xtilt || truthy ytilt then
      let xt := clampd xtilt (d (-1)) (d 1) in
      let yt := clampd ytilt (d (-1)) (d 1) in
      if negb (finitef_ L xt && finitef_ L yt) then Abort
      else
        let asc := N (degrees (atan2_ L (W (- xt)%f) (W yt))) in
        let rad := N (hypot_ L (W xt) (W yt)) in
        let decl := s 90 -f rad *f s 60 in
        let declx := xt *f s 60 in
        let decly := yt *f s 60 in
        if finitef_ L asc && finitef_ L decl && finitef_ L declx && finitef_ L decly then
          Ok (mkTilt asc decl declx decly)
        else Abort
    else Ok (mkTilt (s 0) (s 90) (s 90) (s 90)).

  (* 1331-1347: sanity checks; dtime is replaced at 1350 *)
  Definition sanitise (e : event) : outcome (tilt * event) :=
    let* t := read_tilt (ev_xtilt e) (ev_ytilt e) in
    let pressure := if W (ev_pressure e) <=d d 0 then s 0 else ev_pressure e in
    let x := ev_x e in
    let y := ev_y e in
    let big := d 10000000000 in
    let insane := negb (finitef_ L x) || negb (finitef_ L y) ||
                  (big <d W x) || (big <d W y) || (W x <d d (-10000000000)) || (W y <d d (-10000000000)) in
    let dtime := if ev_dtime e <=d d 0 then dec 1 10000 else ev_dtime e in
    let e := if insane
             then mkEvent (s 0) (s 0) (s 0) (ev_xtilt e) (ev_ytilt e) dtime (s 0) (s 0) (s 0) (ev_linear e)
             else mkEvent x y pressure (ev_xtilt e) (ev_ytilt e) dtime (ev_viewzoom e) (ev_viewrotation e)
                    (ev_barrel e) (ev_linear e) in
    let lim := d 100000000 in
    let nlim := d (-100000000) in
    if (W (ev_x e) <d lim) && (W (ev_y e) <d lim) && (nlim <d W (ev_x e)) && (nlim <d W (ev_y e))
    then Ok (t, e) else Abort.

  (* 1359-1377: [None] if the event is held back *)
  Definition skip_input (b : brush) (x y : S) (dtime : D) : brush * option D :=
    if dec 1 1000 <d W (b_skip b) then
      let dist := hypotf_ L (b_skip_x b -f x) (b_skip_y b -f y) in
      let skipped := N (W (b_skipped b) +d dtime) in
      let skip := b_skip b -f dist in
      let dtime := W skipped in
      if (dec 1 1000 <d W skip) && negb ((d 5 <d dtime) || b_reset b)
      then (with_skip b skip x y skipped, None)
      else (with_skip b (s 0) (s 0) (s 0) (s 0), Some dtime)
    else (b, Some dtime).

  (* 1379-1404: the cursor position after tracking noise and slow tracking *)
  Definition track (b : brush) (x y : S) (dtime : D) : outcome (S * S * brush) :=
    let* (x, y, b) :=
      (if truthy (base b SET_TRACKING_NOISE) then
         let noise := expf_ L (base b SET_RADIUS_LOGARITHMIC) *f base b SET_TRACKING_NOISE in
         if dec 1 1000 <d W noise then
           let b := with_skip b (N (dec 1 2 *d W noise)) x y (b_skipped b) in
           let* (r1, g) := rand_gauss (b_rng b) in
           let* (r2, g) := rand_gauss g in
           Ok (x +f noise *f r1, y +f noise *f r2, with_rng b g)
         else Ok (x, y, b)
       else Ok (x, y, b)) in
    let fac := filter_fac (base b SET_SLOW_TRACKING) (N (d 100 *d dtime)) in
    Ok (st b STATE_X +f (x -f st b STATE_X) *f fac, st b STATE_Y +f (y -f st b STATE_Y) *f fac, b).

  (* 1406-1428: the reset at the start of a stroke *)
  Definition do_reset (b : brush) (x y pressure : S) : outcome brush :=
    let* b := brush_reset (with_reset b false) in
    let* (r, g) := e_next E (b_rng b) in
    let b := with_random (with_rng b g) r in
    let b := set_st b STATE_X x in
    let b := set_st b STATE_Y y in
    let b := set_st b STATE_PRESSURE pressure in
    let b := set_st b STATE_ACTUAL_X (st b STATE_X) in
    let b := set_st b STATE_ACTUAL_Y (st b STATE_Y) in
    Ok (set_st b STATE_STROKE (s 1)).

  (** where an event wants to go: the tracked position and the rest *)
  Record target := mkTarget {
    g_x : S; g_y : S; g_pressure : S; g_tilt : tilt;
    g_viewzoom : S; g_viewrotation : S; g_barrel : S; g_linear : bool }.

  (* the step towards the target by the fraction [f] of what is left, 1442-1464
     and 1489-1503 (there the fraction is missing: one) *)
  Definition step_towards (b : brush) (g : target) (ddab dtime : S) (f : S -> S) : step :=
    mkStep ddab
      (f (g_x g -f st b STATE_X)) (f (g_y g -f st b STATE_Y)) (f (g_pressure g -f st b STATE_PRESSURE))
      (f (t_declination (g_tilt g) -f st b STATE_DECLINATION))
      (f (smallest_angular_difference M (st b STATE_ASCENSION) (t_ascension (g_tilt g))))
      dtime (g_viewzoom g) (g_viewrotation g)
      (f (t_declinationx (g_tilt g) -f st b STATE_DECLINATIONX))
      (f (t_declinationy (g_tilt g) -f st b STATE_DECLINATIONY))
      (f (smallest_angular_difference M (st b STATE_BARREL_ROTATION) (g_barrel g *f s 360))).

  (** what the loop of stroke_to carries around; [p_log] is not in the code: it
      records every simulation step made so far, with the brush after it, latest
      first, for the theorems to talk about *)
  Record progress := mkProgress {
    p_brush : brush; p_world : world; p_painted : option bool; p_left : D; p_moved : S; p_todo : S;
    p_log : list (step * brush) }.

  (* the loop condition, 1437 *)
  Definition pending (p : progress) : bool := d 1 <=d W (p_moved p +f p_todo p).

  (* the loop body, 1438-1487 *)
  Definition one_dab (g : target) (p : progress) : outcome progress :=
    let b := p_brush p in
    let '(ddab, moved) :=
      if s 0 <f p_moved p then (N (d 1 -d W (p_moved p)), s 0) else (s 1, p_moved p) in
    let frac := ddab /f p_todo p in
    let dtime := N (W frac *d (p_left p -d d 0)) in
    let sp := step_towards b g ddab dtime (fun v => frac *f v) in
    let* b := update_states b sp in
    let log := (sp, b) :: p_log p in
    let b := set_st b STATE_FLIP (st b STATE_FLIP *f s (-1)) in
    let* (painted_now, b, w) := prepare_and_draw_dab b (p_world p) (g_linear g) in
    let painted := if painted_now : bool then Some true
                   else match p_painted p with None => Some false | Some v => Some v end in
    let* (r, rg) := e_next E (b_rng b) in
    let b := with_random (with_rng b rg) r in
    let left := p_left p -d W dtime in
    let '(todo, b) := count_dabs_to b (g_x g) (g_y g) (N left) in
    Ok (mkProgress b w painted left moved todo log).

  (* the while loop, at most [fuel] dabs; [None]: more are pending *)
  Fixpoint dabs (fuel : nat) (g : target) (p : progress) : outcome (option progress) :=
    if pending p then
      match fuel with
      | O => Ok None
      | Datatypes.S n => let* p := one_dab g p in dabs n g p
      end
    else Ok (Some p).

  (* the stroke separation logic, 1517-1546; [dpressure] is the pressure step of
     the last simulation step *)
  Definition stroke_split (b : brush) (painted : option bool) (pressure dpressure : S) (dtime : D) : bool * brush :=
    let painted := match painted with
                   | Some v => v
                   | None => negb ((d 0 <d b_idling b) || neqb (b_painting b) (d 0))
                   end in
    if painted then
      let b := with_times b (b_painting b +d dtime) (d 0) in
      ((W (s 4 +f s 3 *f pressure) <d b_painting b) && (s 0 <=f dpressure), b)
    else
      let b := with_times b (b_painting b) (b_idling b +d dtime) in
      if neqb (b_painting b) (d 0) then (d 1 <d b_idling b, b)
      else (dec 9 10 +d W (s 5 *f pressure) <d b_painting b +d b_idling b, b).

  (* 1430-1487: the dabs on the way to the target.
     [None]: [fuel] dabs were not enough. *)
  Definition paint_dabs (fuel : nat) (b : brush) (w : world) (g : target) (dtime : D) : outcome (option progress) :=
    let moved := st b STATE_PARTIAL_DABS in
    let '(todo, b) := count_dabs_to b (g_x g) (g_y g) (N dtime) in
    dabs fuel g (mkProgress b w None dtime moved todo []).

  (* the last step of an event, 1489-1506 *)
  Definition last_step (p : progress) (g : target) : step :=
    step_towards (p_brush p) g (p_todo p) (N (p_left p)) (fun v => v).

  (* 1489-1546: the rest of the way and the decision whether to ask for a split *)
  Definition paint_rest (p : progress) (g : target) (dtime : D) : outcome (bool * brush) :=
    let* b := update_states (p_brush p) (last_step p g) in
    let b := set_st b STATE_PARTIAL_DABS (p_moved p +f p_todo p) in
    Ok (stroke_split b (p_painted p) (g_pressure g) (sp_dpressure (last_step p g)) dtime).

  (* 1430-1546: painting towards the target; the result tells whether to split *)
  Definition paint_to (fuel : nat) (b : brush) (w : world) (g : target) (dtime : D)
    : outcome (option (bool * brush * world)) :=
    let* r := paint_dabs fuel b w g dtime in
    match r with
    | None => Ok None
    | Some p => let* (asked, b) := paint_rest p g dtime in Ok (Some (asked, b, p_world p))
    end.

  (* 1359-1546: everything after the sanity checks *)
  Definition stroke_rest (fuel : nat) (b : brush) (w : world) (t : tilt) (e : event)
    : outcome (option (bool * brush * world)) :=
    let '(b, go) := skip_input b (ev_x e) (ev_y e) (ev_dtime e) in
    match go with
    | None => Ok (Some (false, b, w))
    | Some dtime =>
        let* (x, y, b) := track b (ev_x e) (ev_y e) dtime in
        if (d 5 <d dtime) || b_reset b then
          let* b := do_reset b x y (ev_pressure e) in Ok (Some (true, b, w))
        else
          paint_to fuel b w
            (mkTarget x y (ev_pressure e) t (ev_viewzoom e) (ev_viewrotation e) (ev_barrel e) (ev_linear e)) dtime
    end.

  (* the event of the recursive call at 1355 *)
  Definition silent_event (e : event) : event :=
    mkEvent (ev_x e) (ev_y e) (s 0) (s 90) (s 0) (ev_dtime e -d dec 1 10000) (ev_viewzoom e) (ev_viewrotation e)
      (s 0) (ev_linear e).

  Definition with_dtime (e : event) (t : D) : event :=
    mkEvent (ev_x e) (ev_y e) (ev_pressure e) (ev_xtilt e) (ev_ytilt e) t (ev_viewzoom e) (ev_viewrotation e)
      (ev_barrel e) (ev_linear e).

  (* mypaint_brush_stroke_to, 1300-1547.  The recursive call has pressure 0 and
     does not recurse again; its result is dropped.  [fuel] bounds the dabs of
     each of the two loops. *)
  Definition stroke_to (fuel : nat) (b : brush) (w : world) (e : event) : outcome (option (bool * brush * world)) :=
    let* (t, e) := sanitise e in
    if (dec 100 1000 <d ev_dtime e) && truthy (ev_pressure e) && neqb (st b STATE_PRESSURE) (s 0) then
      let* (t', e') := sanitise (silent_event e) in
      let* r := stroke_rest fuel b w t' e' in
      match r with
      | None => Ok None
      | Some (_, b, w) => stroke_rest fuel b w t (with_dtime e (dec 1 10000))
      end
    else stroke_rest fuel b w t e.

  (* mypaint_brush_from_defaults, 1683-1698 *)
  Definition default_of (id : Z) : S :=
    match nth_error settings_info_array (Z.to_nat id) with
    | Some i => let '(n, k) := st_def i in fl n k
    | None => s 0
    end.
  Definition from_defaults (b : brush) : outcome brush :=
    let* b :=
      ofold (fun b id =>
               let* b := ofold (fun b i => set_mapping_n b id i 0) (zrange 0 INPUTS_COUNT) b in
               set_base_value b id (default_of id))
            (zrange 0 SETTINGS_COUNT) b in
    let om := Z.of_nat SET_OPAQUE_MULTIPLY in
    let pr := Z.of_nat INP_PRESSURE in
    let* b := set_mapping_n b om pr 2 in
    let* b := set_mapping_point b om pr 0 (s 0) (s 0) in
    set_mapping_point b om pr 1 (s 1) (s 1).

  (** a session: what a program does with a brush *)
  Inductive call :=
  | CStroke (e : event) | CReset | CNewStroke
  | CBase (id : Z) (v : S) | CMapN (id input n : Z) | CMapPoint (id input index : Z) (x y : S)
  | CState (i : Z) (v : S) | CBucket (i : Z) (k : bucket).

  Definition run_call (fuel : nat) (b : brush) (w : world) (c : call) : outcome (option (brush * world)) :=
    let keep r := let* b := r in Ok (Some (b, w)) in
    match c with
    | CStroke e => let* r := stroke_to fuel b w e in Ok (option_map (fun x => let '(_, b, w) := x in (b, w)) r)
    | CReset => Ok (Some (request_reset b, w))
    | CNewStroke => Ok (Some (new_stroke b, w))
    | CBase id v => keep (set_base_value b id v)
    | CMapN id input n => keep (set_mapping_n b id input n)
    | CMapPoint id input index x y => keep (set_mapping_point b id input index x y)
    | CState i v => keep (set_state b i v)
    | CBucket i k => let* (_, b) := set_bucket_state b i k in Ok (Some (b, w))
    end.
End Brush.

Arguments brush {M} E. Arguments world {M} E. Arguments progress {M} E.
Arguments step M : clear implicits. Arguments event M : clear implicits.
Arguments tilt M : clear implicits. Arguments target M : clear implicits.
Arguments bucket M : clear implicits. Arguments call M : clear implicits.
