(** Model of brushmodes.c: the per-pixel arithmetic of the blend modes and the
    loop that walks over a run-length encoded mask.

    A tile is memory: a list of 16-bit words, four per pixel (r, g, b, a;
    premultiplied, full scale 2^15).  32-bit unsigned intermediates wrap
    explicitly ([u32]), stores to [uint16_t] truncate explicitly ([u16]). *)
From Verif Require Import Base F32.
From Flocq Require Import IEEE754.BinarySingleNaN.

Definition ONE : Z := 32768.   (* 1<<15 *)

Record pixel : Type := mkPx { pr : Z; pg : Z; pb : Z; pa : Z }.
Record rgb : Type := mkRgb { cr : Z; cg : Z; cb : Z }.

(** brushmodes.c 59-60, 90-91, 153-154, 307-308, 427-428. *)
Definition opa_a_of (m opacity : Z) : Z := u32 (m * opacity) / ONE.
Definition opa_b_of (opa_a : Z) : Z := u32 (ONE - opa_a).

(** brushmodes.c 62-64: one colour channel. *)
Definition mix_chan (opa_a opa_b col c : Z) : Z :=
  u16 (u32 (u32 (opa_a * col) + u32 (opa_b * c)) / ONE).

(** brushmodes.c 59-64, body of [draw_dab_pixels_BlendMode_Normal]. *)
Definition blend_normal (col : rgb) (opacity : Z) (m : Z) (p : pixel) : outcome pixel :=
  let opa_a := opa_a_of m opacity in
  let opa_b := opa_b_of opa_a in
  Ok (mkPx (mix_chan opa_a opa_b (cr col) (pr p))
           (mix_chan opa_a opa_b (cg col) (pg p))
           (mix_chan opa_a opa_b (cb col) (pb p))
           (u16 (u32 (opa_a + u32 (opa_b * pa p) / ONE)))).

(** brushmodes.c 307-313, body of [draw_dab_pixels_BlendMode_Normal_and_Eraser]. *)
Definition blend_eraser (col : rgb) (color_a opacity : Z) (m : Z) (p : pixel) : outcome pixel :=
  let opa_a := opa_a_of m opacity in
  let opa_b := opa_b_of opa_a in
  let opa_a := u32 (opa_a * color_a) / ONE in
  Ok (mkPx (mix_chan opa_a opa_b (cr col) (pr p))
           (mix_chan opa_a opa_b (cg col) (pg p))
           (mix_chan opa_a opa_b (cb col) (pb p))
           (u16 (u32 (opa_a + u32 (opa_b * pa p) / ONE)))).

(** brushmodes.c 427-435, body of [draw_dab_pixels_BlendMode_LockAlpha]. *)
Definition blend_lock_alpha (col : rgb) (opacity : Z) (m : Z) (p : pixel) : outcome pixel :=
  let opa_a := opa_a_of m opacity in
  let opa_b := opa_b_of opa_a in
  let opa_a := u32 (opa_a * pa p) / ONE in
  Ok (mkPx (mix_chan opa_a opa_b (cr col) (pr p))
           (mix_chan opa_a opa_b (cg col) (pg p))
           (mix_chan opa_a opa_b (cb col) (pb p))
           (pa p)).

(** brushmodes.c 145-151: [(1<<15) * ROUND(r * posterize_num) / posterize_num]
    with [r = (float)c / (1<<15)].  The division by a power of two is exact; the
    product has at most 16+8 significant bits when [posterize_num <= 128] (which
    draw_dab guarantees, mypaint-tiled-surface.c 640), so it is exact as well and
    [ROUND] is the integer expression below.  Division by zero is undefined. *)
Definition posterize_chan (num c : Z) : outcome Z :=
  if num =? 0 then UB
  else
    let rounded := (2 * c * num + ONE) / (2 * ONE) in
    let* prod := int_val (ONE * rounded) in
    Ok (u32 (Z.quot prod num)).

(** The same with the floating-point operations spelled out (used to check the
    claim above): [r] and [r * posterize_num] in [float], [+ 0.5] in [double]. *)
Definition posterize_chan_float (num c : Z) : outcome Z :=
  if num =? 0 then UB
  else
    let r := fdiv (f_of_Z c) (f_of_Z ONE) in
    let* rounded := d_to_int (dadd (d_of_f (fmul r (f_of_Z num))) (dlit 1 2)) in
    let* prod := int_val (ONE * rounded) in
    Ok (u32 (Z.quot prod num)).

(** brushmodes.c 145-157, body of [draw_dab_pixels_BlendMode_Posterize]. *)
Definition blend_posterize (opacity num : Z) (m : Z) (p : pixel) : outcome pixel :=
  let* post_r := posterize_chan num (pr p) in
  let* post_g := posterize_chan num (pg p) in
  let* post_b := posterize_chan num (pb p) in
  let opa_a := opa_a_of m opacity in
  let opa_b := opa_b_of opa_a in
  Ok (mkPx (mix_chan opa_a opa_b post_r (pr p))
           (mix_chan opa_a opa_b post_g (pg p))
           (mix_chan opa_a opa_b post_b (pb p))
           (pa p)).

(** brushmodes.c 180-182: the double constants are rounded to [float]. *)
Definition LUMA_RED : f32 := f_of_d (dmul (dlit 2126 10000) (d_of_Z ONE)).
Definition LUMA_GREEN : f32 := f_of_d (dmul (dlit 7152 10000) (d_of_Z ONE)).
Definition LUMA_BLUE : f32 := f_of_d (dmul (dlit 722 10000) (d_of_Z ONE)).

(** brushmodes.c 189-190 divided by [1<<15] (an [int], converted to float). *)
Definition luma (r g b : Z) : f32 :=
  fdiv (fadd (fadd (fmul (f_of_Z r) LUMA_RED) (fmul (f_of_Z g) LUMA_GREEN))
             (fmul (f_of_Z b) LUMA_BLUE))
       (f_of_Z ONE).

Definition div_int (a b : Z) : outcome Z := if b =? 0 then UB else Ok (Z.quot a b).
Definition max3 (a b c : Z) : Z := Z.max (Z.max a b) c.
Definition min3 (a b c : Z) : Z := Z.min (Z.min a b) c.

(** brushmodes.c 222-226 and 227-231: [v = lum + (((v-lum)*k)/d)] *)
Definition clip_chan (lum k d v : Z) : outcome Z :=
  let* prod := int_val ((v - lum) * k) in
  let* q := div_int prod d in
  int_val (lum + q).

(** brushmodes.c 199-241 [set_rgb16_lum_from_rgb16]; the stores to [uint16_t]
    truncate.  [int16_t diff] is reduced modulo 2^16 (implementation-defined
    conversion, gcc). *)
Definition set_lum (top : rgb) (bot : rgb) : outcome rgb :=
  let* botlum := f_to_u16 (luma (cr bot) (cg bot) (cb bot)) in
  let* toplum := f_to_u16 (luma (cr top) (cg top) (cb top)) in
  let diff := i16 (botlum - toplum) in
  let r := cr top + diff in
  let g := cg top + diff in
  let b := cb top + diff in
  let* lum := f_to_int (luma r g b) in
  let cmin := min3 r g b in
  let cmax := max3 r g b in
  let* (r, g, b) :=
    if cmin <? 0 then
      let* r := clip_chan lum lum (lum - cmin) r in
      let* g := clip_chan lum lum (lum - cmin) g in
      let* b := clip_chan lum lum (lum - cmin) b in
      Ok (r, g, b)
    else Ok (r, g, b) in
  let* (r, g, b) :=
    if ONE <? cmax then
      let* r := clip_chan lum (ONE - lum) (cmax - lum) r in
      let* g := clip_chan lum (ONE - lum) (cmax - lum) g in
      let* b := clip_chan lum (ONE - lum) (cmax - lum) b in
      Ok (r, g, b)
    else Ok (r, g, b) in
  Ok (mkRgb (u16 r) (u16 g) (u16 b)).

(** brushmodes.c 262-267: de-premultiply, truncated to [uint16_t]. *)
Definition unpremult (a c : Z) : Z := if a =? 0 then 0 else u16 (u32 (ONE * c) / a).

(** brushmodes.c 259-282, body of [draw_dab_pixels_BlendMode_Color].
    [mask[0] * opacity] is a signed multiplication here (278). *)
Definition blend_color (col : rgb) (opacity : Z) (m : Z) (p : pixel) : outcome pixel :=
  let a := pa p in
  let bot := mkRgb (unpremult a (pr p)) (unpremult a (pg p)) (unpremult a (pb p)) in
  let* s := set_lum col bot in
  let r := u16 (u32 (cr s * a) / ONE) in
  let g := u16 (u32 (cg s * a) / ONE) in
  let b := u16 (u32 (cb s * a) / ONE) in
  let* prod := int_val (m * opacity) in
  let opa_a := Z.quot prod ONE in
  let opa_b := opa_b_of opa_a in
  Ok (mkPx (mix_chan opa_a opa_b r (pr p))
           (mix_chan opa_a opa_b g (pg p))
           (mix_chan opa_a opa_b b (pb p))
           a).

(** The spectral ("paint") variants mix colours through ten floating-point
    reflectances and a fast approximate power function.  That computation is
    replaced by an oracle [mix]: brush colour, pixel, opa_a, opa_b, colour
    alpha give the three floats of [rgb_result]; see Spectral.v for the exact
    formula.  The rest is as in the code. *)
Definition mix_oracle : Type := rgb -> pixel -> Z -> Z -> Z -> f32 * f32 * f32.

(** brushmodes.c 123, 482: [(rgb_result[i] * rgba[3]) + 0.5], stored in uint16_t *)
Definition paint_store (x : f32) (a : Z) : outcome Z :=
  d_to_u16 (dadd (d_of_f (fmul x (f_of_Z a))) (dlit 1 2)).

(** brushmodes.c 86-124, body of [draw_dab_pixels_BlendMode_Normal_Paint]. *)
Definition blend_normal_paint (mix : mix_oracle) (col : rgb) (opacity : Z) (m : Z) (p : pixel)
  : outcome pixel :=
  let opacity := Z.max opacity 150 in
  let opa_a := opa_a_of m opacity in
  let opa_b := opa_b_of opa_a in
  if pa p <=? 0 then blend_normal col opacity m p
  else
    let '(x, y, z) := mix col p opa_a opa_b ONE in
    let a := u16 (u32 (opa_a + u32 (opa_b * pa p) / ONE)) in
    let* r := paint_store x a in
    let* g := paint_store y a in
    let* b := paint_store z a in
    Ok (mkPx r g b a).

(** brushmodes.c 453-483, body of [draw_dab_pixels_BlendMode_LockAlpha_Paint]. *)
Definition blend_lock_alpha_paint (mix : mix_oracle) (col : rgb) (opacity : Z) (m : Z) (p : pixel)
  : outcome pixel :=
  let opacity := Z.max opacity 150 in
  let opa_a := opa_a_of m opacity in
  let opa_b := opa_b_of opa_a in
  if pa p <=? 0 then blend_lock_alpha col opacity m p
  else
    let opa_a := u32 (opa_a * pa p) / ONE in
    let '(x, y, z) := mix col p opa_a opa_b ONE in
    let* r := paint_store x (pa p) in
    let* g := paint_store y (pa p) in
    let* b := paint_store z (pa p) in
    Ok (mkPx r g b (pa p)).

(** brushmodes.c 325-331 [spectral_blend_factor]; [1.65] is rounded to float,
    [0.5 + b / (...)] is computed in double and rounded on return. *)
Definition spectral_blend_factor (x : f32) : f32 :=
  let b := fsub (fmul x (f_of_Z 8)) (f_of_Z 3) in
  f_of_d (dadd (dlit 1 2)
     (d_of_f (fdiv b (fadd f1 (fmul (fabs b) (f_of_d (dlit 165 100))))))).

(** brushmodes.c 352-408, body of [draw_dab_pixels_BlendMode_Normal_and_Eraser_Paint].
    401: [(additive_factor * rgb[i]) + (spectral_factor * rgb_result[i] * opa_out)]
    converted to [uint32_t]. *)
Definition blend_eraser_paint (mix : mix_oracle) (col : rgb) (color_a opacity : Z) (m : Z) (p : pixel)
  : outcome pixel :=
  let opa_a := opa_a_of m opacity in
  let opa_b := opa_b_of opa_a in
  let opa_a2 := u32 (opa_a * color_a) / ONE in
  let opa_out := u32 (opa_a2 + u32 (opa_b * pa p) / ONE) in
  let sf := clampf (spectral_blend_factor (fdiv (f_of_Z (pa p)) (f_of_Z ONE))) f0 f1 in
  let af := f_of_d (dsub (d_of_Z 1) (d_of_f sf)) in
  let add c px := u32 (u32 (opa_a2 * c) + u32 (opa_b * px)) / ONE in
  let base := if negb (feq af f0)
              then (add (cr col) (pr p), add (cg col) (pg p), add (cb col) (pb p))
              else (0, 0, 0) in
  let* (r, g, b) :=
    if negb (feq sf f0) && negb (pa p =? 0) then
      let '(x, y, z) := mix col p opa_a opa_b color_a in
      let out c s := f_to_u32 (fadd (fmul af (f_of_Z c)) (fmul (fmul sf s) (f_of_Z opa_out))) in
      let '(r0, g0, b0) := base in
      let* r := out r0 x in
      let* g := out g0 y in
      let* b := out b0 z in
      Ok (r, g, b)
    else Ok base in
  Ok (mkPx (u16 r) (u16 g) (u16 b) (u16 opa_out)).

(** ** The loop over the encoded mask.

    All the [draw_dab_pixels_*] and [get_color_pixels_*] functions share this
    loop (e.g. brushmodes.c 57-70):
<<
  while (1) {
    for (; mask[0]; mask++, rgba+=4) { ...body(mask[0], rgba)... }
    if (!mask[1]) break;
    rgba += mask[1];
    mask += 2;
  }
>>
    [mask] is the rest of the mask buffer (reading past it is undefined), [q]
    the offset of [rgba] in 16-bit words, [s] whatever the body updates. *)
Fixpoint mask_loop {S : Type} (body : S -> Z -> Z -> outcome S)
         (mask : list Z) (q : Z) (s : S) : outcome S :=
  match mask with
  | [] => UB
  | m :: mask' =>
      if m =? 0 then
        match mask' with
        | [] => UB
        | k :: mask'' => if k =? 0 then Ok s else mask_loop body mask'' (q + k) s
        end
      else
        let* s := body s q m in
        mask_loop body mask' (q + 4) s
  end.

(** Reading and writing the four words at offset [q] of the tile buffer. *)
Definition read_px (mem : list Z) (q : Z) : outcome pixel :=
  if (0 <=? q) && (q + 4 <=? Z.of_nat (length mem)) then
    let w i := nth (Z.to_nat (q + i)) mem 0 in
    Ok (mkPx (w 0) (w 1) (w 2) (w 3))
  else UB.

Definition write_px (mem : list Z) (q : Z) (p : pixel) : list Z :=
  let st m i v := upd m (Z.to_nat (q + i)) v in
  st (st (st (st mem 0 (pr p)) 1 (pg p)) 2 (pb p)) 3 (pa p).

(** [draw_dab_pixels_*]: the loop with one of the bodies above. *)
Definition stamp (blend : Z -> pixel -> outcome pixel) (mask : list Z) (mem : list Z)
  : outcome (list Z) :=
  mask_loop (fun mem q m =>
    let* p := read_px mem q in
    let* p' := blend m p in
    Ok (write_px mem q p')) mask 0 mem.
