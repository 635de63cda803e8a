(** mypaint-fixed-tiled-surface.c: the in-memory surface. *)
From Verif Require Import Base F32.

(** Size of a tile: 64 x 64 pixels, four 16-bit words each
    (MYPAINT_TILE_SIZE, mypaint-tiled-surface.h; tile_size, 114). *)
Definition TILE_PX : Z := 64.
Definition TILE_WORDS : Z := 64 * 64 * 4.
Definition TILE_BYTES : Z := TILE_WORDS * 2.
Definition size_t (z : Z) : Z := z mod 18446744073709551616.

(** Memory in 16-bit words.  [fs_buffer] is the big allocation, valid at
    addresses 0 <= a < fs_words; [fs_null] the null tile. *)
Record fixed := mkFixed {
  fs_tiles_w : Z; fs_tiles_h : Z; fs_width : Z; fs_height : Z;
  fs_words : Z; fs_buffer : Z -> Z; fs_null : Z -> Z
}.

(** The pointer a request gets. *)
Inductive tile_ptr := NullTile | InBuffer (word : Z).

(* the test of both functions, 46, 70 *)
Definition outside (s : fixed) (tx ty : Z) : bool :=
  (fs_tiles_w s <=? tx) || (fs_tiles_h s <=? ty) || (tx <? 0) || (ty <? 0).

(* tile_request_start, 36-60 (offsets are size_t, 64 bits) *)
Definition request_start (s : fixed) (tx ty : Z) : tile_ptr :=
  if outside s tx ty then NullTile
  else
    let rowstride := size_t (fs_tiles_w s * TILE_BYTES) in
    let x_offset := size_t (tx * TILE_BYTES) in
    let tile_offset := size_t (size_t (rowstride * ty) + x_offset) in
    InBuffer (tile_offset / 2).

(* reset_null_tile, 30-33; tile_request_end, 62-76 *)
Definition request_end (s : fixed) (tx ty : Z) : fixed :=
  if outside s tx ty then
    mkFixed (fs_tiles_w s) (fs_tiles_h s) (fs_width s) (fs_height s) (fs_words s) (fs_buffer s) (fun _ => 0)
  else s.

(** Reading and writing through the pointer: word [o] of the tile. *)
Definition load (s : fixed) (p : tile_ptr) (o : Z) : outcome Z :=
  match p with
  | NullTile => if (0 <=? o) && (o <? TILE_WORDS) then Ok (fs_null s o) else UB
  | InBuffer w => if (0 <=? w + o) && (w + o <? fs_words s) then Ok (fs_buffer s (w + o)) else UB
  end.
Definition store (s : fixed) (p : tile_ptr) (o v : Z) : outcome fixed :=
  match p with
  | NullTile =>
      if (0 <=? o) && (o <? TILE_WORDS) then
        Ok (mkFixed (fs_tiles_w s) (fs_tiles_h s) (fs_width s) (fs_height s) (fs_words s) (fs_buffer s)
              (fun a => if a =? o then v else fs_null s a))
      else UB
  | InBuffer w =>
      if (0 <=? w + o) && (w + o <? fs_words s) then
        Ok (mkFixed (fs_tiles_w s) (fs_tiles_h s) (fs_width s) (fs_height s) (fs_words s)
              (fun a => if a =? w + o then v else fs_buffer s a) (fs_null s))
      else UB
  end.

(* (int) ceil((float)width / tile_size_pixels), 112-113 *)
Definition tiles_for (width : Z) : outcome Z :=
  let x := d_of_f (fdiv (f_of_Z width) (f_of_Z TILE_PX)) in
  match dfloor_Z (dopp x) with Some z => int_val (- z) | None => UB end.

(* mypaint_fixed_tiled_surface_new, 97-139.  [m1], [m2], [m3]: do the mallocs of
   the structure, the buffer and the null tile succeed (the first and the last
   are not checked by the code: undefined).  Int products are checked. *)
Definition fixed_new (m1 m2 m3 : bool) (width height : Z) : outcome (option fixed) :=
  if negb (0 <? width) then Abort
  else if negb (0 <? height) then Abort
  else if negb m1 then UB
  else
    let* tw := tiles_for width in
    let* th := tiles_for height in
    let* tiles := int_val (tw * th) in
    let buffer_size := size_t (tiles * TILE_BYTES) in
    let* a := int_val (TILE_PX * tw) in
    if negb (width <=? a) then Abort
    else
      let* a := int_val (TILE_PX * th) in
      if negb (height <=? a) then Abort
      else
        let* a := int_val (width * height) in
        let* a := int_val (a * 4) in
        if negb (size_t (a * 2) <=? buffer_size) then Abort
        else if negb m2 then Ok None
        else if negb m3 then UB
        else Ok (Some (mkFixed tw th width height (buffer_size / 2) (fun _ => 65535) (fun _ => 0))).
