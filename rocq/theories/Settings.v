(** mypaint-brush-settings.c and the tables generated from brushsettings.json.

    The build turns brushsettings.json into two C arrays and three enumerations
    (generate.py 252-281, 294-333); the lists below are those arrays, in file order.
    Translated names and tooltips are left out. *)
From Verif Require Import Base.
From Coq Require Import String.
Local Open Scope string_scope.
Local Open Scope Z_scope.

(** a decimal number of the file, as numerator and denominator *)
Definition decimal : Type := (Z * Z)%type.

(* MyPaintBrushSettingInfo, mypaint-brush-settings.h; a missing bound becomes FLT_MAX *)
Record setting_info := mkSetting {
  st_cname : string; st_constant : bool; st_min : option decimal; st_def : decimal; st_max : option decimal }.
(* MyPaintBrushInputInfo *)
Record input_info := mkInput {
  in_cname : string; in_hard_min : option decimal; in_soft_min : decimal; in_normal : decimal;
  in_soft_max : decimal; in_hard_max : option decimal }.

(* brushsettings.json, "settings" (from line 194) *)
Definition settings_info_array : list setting_info := [
  mkSetting "opaque" false (Some (0, 1)) (1, 1) (Some (2, 1));
  mkSetting "opaque_multiply" false (Some (0, 1)) (0, 1) (Some (2, 1));
  mkSetting "opaque_linearize" true (Some (0, 1)) (9, 10) (Some (2, 1));
  mkSetting "radius_logarithmic" false (Some ((-2), 1)) (2, 1) (Some (6, 1));
  mkSetting "hardness" false (Some (0, 1)) (4, 5) (Some (1, 1));
  mkSetting "softness" false (Some (0, 1)) (0, 1) (Some (1, 1));
  mkSetting "anti_aliasing" false (Some (0, 1)) (1, 1) (Some (5, 1));
  mkSetting "dabs_per_basic_radius" false (Some (0, 1)) (0, 1) (Some (200, 1));
  mkSetting "dabs_per_actual_radius" false (Some (0, 1)) (2, 1) (Some (200, 1));
  mkSetting "dabs_per_second" false (Some (0, 1)) (0, 1) (Some (200, 1));
  mkSetting "gridmap_scale" false (Some ((-10), 1)) (0, 1) (Some (10, 1));
  mkSetting "gridmap_scale_x" false (Some (0, 1)) (1, 1) (Some (10, 1));
  mkSetting "gridmap_scale_y" false (Some (0, 1)) (1, 1) (Some (10, 1));
  mkSetting "radius_by_random" false (Some (0, 1)) (0, 1) (Some (3, 2));
  mkSetting "speed1_slowness" false (Some (0, 1)) (1, 25) (Some (1, 5));
  mkSetting "speed2_slowness" false (Some (0, 1)) (4, 5) (Some (3, 1));
  mkSetting "speed1_gamma" true (Some ((-8), 1)) (4, 1) (Some (8, 1));
  mkSetting "speed2_gamma" true (Some ((-8), 1)) (4, 1) (Some (8, 1));
  mkSetting "offset_by_random" false (Some (0, 1)) (0, 1) (Some (25, 1));
  mkSetting "offset_y" false (Some ((-40), 1)) (0, 1) (Some (40, 1));
  mkSetting "offset_x" false (Some ((-40), 1)) (0, 1) (Some (40, 1));
  mkSetting "offset_angle" false (Some ((-40), 1)) (0, 1) (Some (40, 1));
  mkSetting "offset_angle_asc" false (Some ((-40), 1)) (0, 1) (Some (40, 1));
  mkSetting "offset_angle_view" false (Some ((-40), 1)) (0, 1) (Some (40, 1));
  mkSetting "offset_angle_2" false (Some (0, 1)) (0, 1) (Some (40, 1));
  mkSetting "offset_angle_2_asc" false (Some (0, 1)) (0, 1) (Some (40, 1));
  mkSetting "offset_angle_2_view" false (Some (0, 1)) (0, 1) (Some (40, 1));
  mkSetting "offset_angle_adj" false (Some ((-180), 1)) (0, 1) (Some (180, 1));
  mkSetting "offset_multiplier" false (Some ((-2), 1)) (0, 1) (Some (3, 1));
  mkSetting "offset_by_speed" false (Some ((-3), 1)) (0, 1) (Some (3, 1));
  mkSetting "offset_by_speed_slowness" false (Some (0, 1)) (1, 1) (Some (15, 1));
  mkSetting "slow_tracking" true (Some (0, 1)) (0, 1) (Some (10, 1));
  mkSetting "slow_tracking_per_dab" false (Some (0, 1)) (0, 1) (Some (10, 1));
  mkSetting "tracking_noise" true (Some (0, 1)) (0, 1) (Some (12, 1));
  mkSetting "color_h" true (Some (0, 1)) (0, 1) (Some (1, 1));
  mkSetting "color_s" true (Some ((-1), 2)) (0, 1) (Some (3, 2));
  mkSetting "color_v" true (Some ((-1), 2)) (0, 1) (Some (3, 2));
  mkSetting "restore_color" true (Some (0, 1)) (0, 1) (Some (1, 1));
  mkSetting "change_color_h" false (Some ((-2), 1)) (0, 1) (Some (2, 1));
  mkSetting "change_color_l" false (Some ((-2), 1)) (0, 1) (Some (2, 1));
  mkSetting "change_color_hsl_s" false (Some ((-2), 1)) (0, 1) (Some (2, 1));
  mkSetting "change_color_v" false (Some ((-2), 1)) (0, 1) (Some (2, 1));
  mkSetting "change_color_hsv_s" false (Some ((-2), 1)) (0, 1) (Some (2, 1));
  mkSetting "smudge" false (Some (0, 1)) (0, 1) (Some (1, 1));
  mkSetting "paint_mode" false (Some (0, 1)) (1, 1) (Some (1, 1));
  mkSetting "smudge_transparency" false (Some ((-1), 1)) (0, 1) (Some (1, 1));
  mkSetting "smudge_length" false (Some (0, 1)) (1, 2) (Some (1, 1));
  mkSetting "smudge_length_log" false (Some (0, 1)) (0, 1) (Some (20, 1));
  mkSetting "smudge_bucket" false (Some (0, 1)) (0, 1) (Some (255, 1));
  mkSetting "smudge_radius_log" false (Some ((-8), 5)) (0, 1) (Some (8, 5));
  mkSetting "eraser" false (Some (0, 1)) (0, 1) (Some (1, 1));
  mkSetting "stroke_threshold" true (Some (0, 1)) (0, 1) (Some (1, 2));
  mkSetting "stroke_duration_logarithmic" false (Some ((-1), 1)) (4, 1) (Some (14, 1));
  mkSetting "stroke_holdtime" false (Some (0, 1)) (0, 1) (Some (10, 1));
  mkSetting "custom_input" false (Some ((-5), 1)) (0, 1) (Some (5, 1));
  mkSetting "custom_input_slowness" false (Some (0, 1)) (0, 1) (Some (10, 1));
  mkSetting "elliptical_dab_ratio" false (Some (1, 1)) (1, 1) (Some (10, 1));
  mkSetting "elliptical_dab_angle" false (Some (0, 1)) (90, 1) (Some (180, 1));
  mkSetting "direction_filter" false (Some (0, 1)) (2, 1) (Some (10, 1));
  mkSetting "lock_alpha" false (Some (0, 1)) (0, 1) (Some (1, 1));
  mkSetting "colorize" false (Some (0, 1)) (0, 1) (Some (1, 1));
  mkSetting "posterize" false (Some (0, 1)) (0, 1) (Some (1, 1));
  mkSetting "posterize_num" false (Some (1, 100)) (1, 20) (Some (32, 25));
  mkSetting "snap_to_pixel" false (Some (0, 1)) (0, 1) (Some (1, 1));
  mkSetting "pressure_gain_log" true (Some ((-9), 5)) (0, 1) (Some (9, 5))].

(* brushsettings.json, "inputs" (from line 2) *)
Definition inputs_info_array : list input_info := [
  mkInput "pressure" (Some (0, 1)) (0, 1) (2, 5) (1, 1) (None);
  mkInput "random" (Some (0, 1)) (0, 1) (1, 2) (1, 1) (Some (1, 1));
  mkInput "stroke" (Some (0, 1)) (0, 1) (1, 2) (1, 1) (Some (1, 1));
  mkInput "direction" (Some (0, 1)) (0, 1) (0, 1) (180, 1) (Some (180, 1));
  mkInput "tilt_declination" (Some (0, 1)) (0, 1) (0, 1) (90, 1) (Some (90, 1));
  mkInput "tilt_ascension" (Some ((-180), 1)) ((-180), 1) (0, 1) (180, 1) (Some (180, 1));
  mkInput "speed1" (None) (0, 1) (1, 2) (4, 1) (None);
  mkInput "speed2" (None) (0, 1) (1, 2) (4, 1) (None);
  mkInput "custom" (None) ((-10), 1) (0, 1) (10, 1) (None);
  mkInput "direction_angle" (Some (0, 1)) (0, 1) (0, 1) (360, 1) (Some (360, 1));
  mkInput "attack_angle" (Some ((-180), 1)) ((-180), 1) (0, 1) (180, 1) (Some (180, 1));
  mkInput "tilt_declinationx" (Some ((-90), 1)) ((-90), 1) (0, 1) (90, 1) (Some (90, 1));
  mkInput "tilt_declinationy" (Some ((-90), 1)) ((-90), 1) (0, 1) (90, 1) (Some (90, 1));
  mkInput "gridmap_x" (Some (0, 1)) (0, 1) (0, 1) (256, 1) (Some (256, 1));
  mkInput "gridmap_y" (Some (0, 1)) (0, 1) (0, 1) (256, 1) (Some (256, 1));
  mkInput "viewzoom" (Some ((-277), 100)) ((-277), 100) (0, 1) (83, 20) (Some (83, 20));
  mkInput "brush_radius" (Some ((-2), 1)) ((-2), 1) (0, 1) (6, 1) (Some (6, 1));
  mkInput "barrel_rotation" (Some ((-180), 1)) ((-180), 1) (0, 1) (180, 1) (Some (180, 1))].

(* brushsettings.json, "states" *)
Definition states_array : list string := [
  "x"; "y"; "pressure"; "partial_dabs"; "actual_radius"; "smudge_ra"; "smudge_ga"; "smudge_ba"; "smudge_a"; "last_getcolor_r"; "last_getcolor_g"; "last_getcolor_b"; "last_getcolor_a"; "last_getcolor_recentness"; "actual_x"; "actual_y"; "norm_dx_slow"; "norm_dy_slow"; "norm_speed1_slow"; "norm_speed2_slow"; "stroke"; "stroke_started"; "custom_input"; "rng_seed"; "actual_elliptical_dab_ratio"; "actual_elliptical_dab_angle"; "direction_dx"; "direction_dy"; "declination"; "ascension"; "viewzoom"; "viewrotation"; "direction_angle_dx"; "direction_angle_dy"; "attack_angle"; "flip"; "gridmap_x"; "gridmap_y"; "declinationx"; "declinationy"; "dabs_per_basic_radius"; "dabs_per_actual_radius"; "dabs_per_second"; "barrel_rotation"].

(* the enumerations MyPaintBrushSetting, MyPaintBrushInput and MyPaintBrushState, generate.py 310-333 *)
Definition SETTINGS_COUNT : nat := 65.
Definition INPUTS_COUNT : nat := 18.
Definition STATES_COUNT : nat := 44.
Definition SET_OPAQUE : nat := 0.
Definition SET_OPAQUE_MULTIPLY : nat := 1.
Definition SET_OPAQUE_LINEARIZE : nat := 2.
Definition SET_RADIUS_LOGARITHMIC : nat := 3.
Definition SET_HARDNESS : nat := 4.
Definition SET_SOFTNESS : nat := 5.
Definition SET_ANTI_ALIASING : nat := 6.
Definition SET_DABS_PER_BASIC_RADIUS : nat := 7.
Definition SET_DABS_PER_ACTUAL_RADIUS : nat := 8.
Definition SET_DABS_PER_SECOND : nat := 9.
Definition SET_GRIDMAP_SCALE : nat := 10.
Definition SET_GRIDMAP_SCALE_X : nat := 11.
Definition SET_GRIDMAP_SCALE_Y : nat := 12.
Definition SET_RADIUS_BY_RANDOM : nat := 13.
Definition SET_SPEED1_SLOWNESS : nat := 14.
Definition SET_SPEED2_SLOWNESS : nat := 15.
Definition SET_SPEED1_GAMMA : nat := 16.
Definition SET_SPEED2_GAMMA : nat := 17.
Definition SET_OFFSET_BY_RANDOM : nat := 18.
Definition SET_OFFSET_Y : nat := 19.
Definition SET_OFFSET_X : nat := 20.
Definition SET_OFFSET_ANGLE : nat := 21.
Definition SET_OFFSET_ANGLE_ASC : nat := 22.
Definition SET_OFFSET_ANGLE_VIEW : nat := 23.
Definition SET_OFFSET_ANGLE_2 : nat := 24.
Definition SET_OFFSET_ANGLE_2_ASC : nat := 25.
Definition SET_OFFSET_ANGLE_2_VIEW : nat := 26.
Definition SET_OFFSET_ANGLE_ADJ : nat := 27.
Definition SET_OFFSET_MULTIPLIER : nat := 28.
Definition SET_OFFSET_BY_SPEED : nat := 29.
Definition SET_OFFSET_BY_SPEED_SLOWNESS : nat := 30.
Definition SET_SLOW_TRACKING : nat := 31.
Definition SET_SLOW_TRACKING_PER_DAB : nat := 32.
Definition SET_TRACKING_NOISE : nat := 33.
Definition SET_COLOR_H : nat := 34.
Definition SET_COLOR_S : nat := 35.
Definition SET_COLOR_V : nat := 36.
Definition SET_RESTORE_COLOR : nat := 37.
Definition SET_CHANGE_COLOR_H : nat := 38.
Definition SET_CHANGE_COLOR_L : nat := 39.
Definition SET_CHANGE_COLOR_HSL_S : nat := 40.
Definition SET_CHANGE_COLOR_V : nat := 41.
Definition SET_CHANGE_COLOR_HSV_S : nat := 42.
Definition SET_SMUDGE : nat := 43.
Definition SET_PAINT_MODE : nat := 44.
Definition SET_SMUDGE_TRANSPARENCY : nat := 45.
Definition SET_SMUDGE_LENGTH : nat := 46.
Definition SET_SMUDGE_LENGTH_LOG : nat := 47.
Definition SET_SMUDGE_BUCKET : nat := 48.
Definition SET_SMUDGE_RADIUS_LOG : nat := 49.
Definition SET_ERASER : nat := 50.
Definition SET_STROKE_THRESHOLD : nat := 51.
Definition SET_STROKE_DURATION_LOGARITHMIC : nat := 52.
Definition SET_STROKE_HOLDTIME : nat := 53.
Definition SET_CUSTOM_INPUT : nat := 54.
Definition SET_CUSTOM_INPUT_SLOWNESS : nat := 55.
Definition SET_ELLIPTICAL_DAB_RATIO : nat := 56.
Definition SET_ELLIPTICAL_DAB_ANGLE : nat := 57.
Definition SET_DIRECTION_FILTER : nat := 58.
Definition SET_LOCK_ALPHA : nat := 59.
Definition SET_COLORIZE : nat := 60.
Definition SET_POSTERIZE : nat := 61.
Definition SET_POSTERIZE_NUM : nat := 62.
Definition SET_SNAP_TO_PIXEL : nat := 63.
Definition SET_PRESSURE_GAIN_LOG : nat := 64.

Definition INP_PRESSURE : nat := 0.
Definition INP_RANDOM : nat := 1.
Definition INP_STROKE : nat := 2.
Definition INP_DIRECTION : nat := 3.
Definition INP_TILT_DECLINATION : nat := 4.
Definition INP_TILT_ASCENSION : nat := 5.
Definition INP_SPEED1 : nat := 6.
Definition INP_SPEED2 : nat := 7.
Definition INP_CUSTOM : nat := 8.
Definition INP_DIRECTION_ANGLE : nat := 9.
Definition INP_ATTACK_ANGLE : nat := 10.
Definition INP_TILT_DECLINATIONX : nat := 11.
Definition INP_TILT_DECLINATIONY : nat := 12.
Definition INP_GRIDMAP_X : nat := 13.
Definition INP_GRIDMAP_Y : nat := 14.
Definition INP_VIEWZOOM : nat := 15.
Definition INP_BRUSH_RADIUS : nat := 16.
Definition INP_BARREL_ROTATION : nat := 17.

Definition STATE_X : nat := 0.
Definition STATE_Y : nat := 1.
Definition STATE_PRESSURE : nat := 2.
Definition STATE_PARTIAL_DABS : nat := 3.
Definition STATE_ACTUAL_RADIUS : nat := 4.
Definition STATE_SMUDGE_RA : nat := 5.
Definition STATE_SMUDGE_GA : nat := 6.
Definition STATE_SMUDGE_BA : nat := 7.
Definition STATE_SMUDGE_A : nat := 8.
Definition STATE_LAST_GETCOLOR_R : nat := 9.
Definition STATE_LAST_GETCOLOR_G : nat := 10.
Definition STATE_LAST_GETCOLOR_B : nat := 11.
Definition STATE_LAST_GETCOLOR_A : nat := 12.
Definition STATE_LAST_GETCOLOR_RECENTNESS : nat := 13.
Definition STATE_ACTUAL_X : nat := 14.
Definition STATE_ACTUAL_Y : nat := 15.
Definition STATE_NORM_DX_SLOW : nat := 16.
Definition STATE_NORM_DY_SLOW : nat := 17.
Definition STATE_NORM_SPEED1_SLOW : nat := 18.
Definition STATE_NORM_SPEED2_SLOW : nat := 19.
Definition STATE_STROKE : nat := 20.
Definition STATE_STROKE_STARTED : nat := 21.
Definition STATE_CUSTOM_INPUT : nat := 22.
Definition STATE_RNG_SEED : nat := 23.
Definition STATE_ACTUAL_ELLIPTICAL_DAB_RATIO : nat := 24.
Definition STATE_ACTUAL_ELLIPTICAL_DAB_ANGLE : nat := 25.
Definition STATE_DIRECTION_DX : nat := 26.
Definition STATE_DIRECTION_DY : nat := 27.
Definition STATE_DECLINATION : nat := 28.
Definition STATE_ASCENSION : nat := 29.
Definition STATE_VIEWZOOM : nat := 30.
Definition STATE_VIEWROTATION : nat := 31.
Definition STATE_DIRECTION_ANGLE_DX : nat := 32.
Definition STATE_DIRECTION_ANGLE_DY : nat := 33.
Definition STATE_ATTACK_ANGLE : nat := 34.
Definition STATE_FLIP : nat := 35.
Definition STATE_GRIDMAP_X : nat := 36.
Definition STATE_GRIDMAP_Y : nat := 37.
Definition STATE_DECLINATIONX : nat := 38.
Definition STATE_DECLINATIONY : nat := 39.
Definition STATE_DABS_PER_BASIC_RADIUS : nat := 40.
Definition STATE_DABS_PER_ACTUAL_RADIUS : nat := 41.
Definition STATE_DABS_PER_SECOND : nat := 42.
Definition STATE_BARREL_ROTATION : nat := 43.


(* the loop of mypaint_brush_setting_from_cname and mypaint_brush_input_from_cname:
   the first entry whose name matches; (MyPaintBrushSetting)-1 if there is none *)
Fixpoint first_match (names : list string) (i : Z) (cname : string) : Z :=
  match names with
  | [] => -1
  | n :: rest => if String.eqb n cname then i else first_match rest (i + 1) cname
  end.
(* mypaint_brush_setting_from_cname, mypaint-brush-settings.c 58-68 *)
Definition setting_from_cname (cname : string) : Z := first_match (map st_cname settings_info_array) 0 cname.
(* mypaint_brush_input_from_cname, 90-100 *)
Definition input_from_cname (cname : string) : Z := first_match (map in_cname inputs_info_array) 0 cname.

(* mypaint_brush_setting_info, 36-42: the parameter is an enumeration, unsigned
   with the usual compilers *)
Definition brush_setting_info (id : Z) : outcome setting_info :=
  if (0 <=? id) && (id <? Z.of_nat SETTINGS_COUNT) then
    match nth_error settings_info_array (Z.to_nat id) with Some s => Ok s | None => UB end
  else Abort.
(* mypaint_brush_input_info, 70-76 *)
Definition brush_input_info (id : Z) : outcome input_info :=
  if (0 <=? id) && (id <? Z.of_nat INPUTS_COUNT) then
    match nth_error inputs_info_array (Z.to_nat id) with Some s => Ok s | None => UB end
  else Abort.
