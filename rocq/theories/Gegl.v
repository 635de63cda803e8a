(** The GEGL backend of the tiled surface: gegl/mypaint-gegl-surface.c.

    The buffers themselves belong to the GEGL library, which is not part of
    the repository.  What the backend uses of them is modelled after GEGL's
    documented interface and is part of the trusted base:
    - a buffer stores pixels for the whole plane and has an extent; reading
      with GEGL_ABYSS_NONE gives blank outside the extent, and writing
      outside the extent has no effect;
    - gegl_buffer_set_extent changes the extent and no stored pixel;
    - a conversion between pixel formats is some pair of functions. *)
From Verif Require Import Base Blend.

Record grect := mkG { gx : Z; gy : Z; gw : Z; gh : Z }.

Definition inside (r : grect) (x y : Z) : bool :=
  (gx r <=? x) && (x <? gx r + gw r) && (gy r <=? y) && (y <? gy r + gh r).

(** GEGL, gegl_rectangle_bounding_box: empty rectangles do not count; all
    coordinates are C ints. *)
Definition bounding_box (a b : grect) : outcome grect :=
  let full r := negb (gw r =? 0) && negb (gh r =? 0) in
  if full a then
    if full b then
      let x1 := Z.min (gx a) (gx b) in
      let y1 := Z.min (gy a) (gy b) in
      let* ax := int_val (gx a + gw a) in
      let* bx := int_val (gx b + gw b) in
      let* ay := int_val (gy a + gh a) in
      let* by_ := int_val (gy b + gh b) in
      let* w := int_val (Z.max ax bx - x1) in
      let* h := int_val (Z.max ay by_ - y1) in
      Ok (mkG x1 y1 w h)
    else Ok a
  else if full b then Ok b else Ok (mkG 0 0 0 0).

Definition TILE : Z := 64.
Definition blank : pixel := mkPx 0 0 0 0.

(** Contents of one tile: column and row within the tile. *)
Definition patch := Z -> Z -> pixel.

Section Backend.
(** The pixels a buffer stores, its blank pixel, and the conversions from
    and to the 15-bit premultiplied format of the surface. *)
Variable V : Type.
Variable vblank : V.
Variable to15 : V -> pixel.
Variable from15 : pixel -> V.

(** [b_native]: buffer_is_native (lines 41-55), the buffer has the surface's
    pixel format and tiles of the surface's size; [b_aligned]: the iterator
    returns the whole tile at once (line 98). *)
Record gbuf := mkB {
  b_native : bool;
  b_aligned : bool;
  b_extent : grect;
  b_data : Z -> Z -> V
}.

(** gegl_buffer_get of one pixel. *)
Definition seen (b : gbuf) (x y : Z) : V :=
  if inside (b_extent b) x y then b_data b x y else vblank.

(** gegl_buffer_set of a tile at (X, Y). *)
Definition put (b : gbuf) (X Y : Z) (p : patch) : gbuf :=
  mkB (b_native b) (b_aligned b) (b_extent b)
    (fun x y =>
       if inside (mkG X Y TILE TILE) x y && inside (b_extent b) x y
       then from15 (p (x - X) (y - Y)) else b_data b x y).

(** gegl_buffer_get of a tile at (X, Y). *)
Definition get (b : gbuf) (X Y : Z) : patch :=
  fun i j => to15 (seen b (X + i) (Y + j)).

Definition set_extent (b : gbuf) (r : grect) : gbuf :=
  mkB (b_native b) (b_aligned b) r (b_data b).

(** struct MyPaintGeglTiledSurface (lines 31-37): the bounding box the
    surface keeps for itself, and the buffer. *)
Record gsurf := mkS { s_rect : grect; s_buf : gbuf }.

(** One use of a tile: tile_request_start, the caller reads or changes the
    tile, tile_request_end.  [j_paint] is what the caller does to the
    contents (a caller that only samples leaves them alone). *)
Record job := mkJ { j_tx : Z; j_ty : Z; j_readonly : bool; j_paint : patch -> patch }.

(** Where a job is.  The places at which another thread can come in between
    are the accesses to the shared fields [extent_rect] and the buffer. *)
Inductive phase :=
| Fresh                      (* not started *)
| Boxed (r : grect)          (* bounding box computed, not yet stored *)
| Kept                       (* bounding box stored in extent_rect *)
| Grown                      (* extent of the buffer set *)
| Held (p : patch)           (* tile handed to the caller *)
| Over.

(** tile_request_start (lines 63-121) and tile_request_end (lines 123-147),
    one shared access at a time.  Lines 70-71: position of the tile (the
    product is a C int).  Lines 74-83: a writing request merges the tile into
    extent_rect and sets the extent of the buffer to it.  Lines 85-112: a
    native buffer gives access to the tile, or NULL when the tile does not
    come in one piece, in which case the caller goes away without ending the
    request (mypaint-tiled-surface.c lines 580-583 and 871-874).  Lines
    113-120: otherwise a converted copy.  Lines 128-134: ending a request on a
    native buffer makes the changes of a writing request permanent; lines
    135-145: on another buffer the copy is written back, whatever the kind of
    the request.  The native iterator is taken to hand out a copy which is
    written back at the end; it is the tile itself, which nobody else uses
    meanwhile. *)
Definition job_step (s : gsurf) (j : job) (ph : phase) : outcome (gsurf * phase) :=
  let* X := int_val (j_tx j * TILE) in
  let* Y := int_val (j_ty j * TILE) in
  let b := s_buf s in
  match ph with
  | Fresh =>
      if j_readonly j then Ok (s, Grown)
      else let* r := bounding_box (s_rect s) (mkG X Y TILE TILE) in Ok (s, Boxed r)
  | Boxed r => Ok (mkS r b, Kept)
  | Kept => Ok (mkS (s_rect s) (set_extent b (s_rect s)), Grown)
  | Grown =>
      if b_native b && negb (b_aligned b) then Ok (s, Over)
      else Ok (s, Held (j_paint j (get b X Y)))
  | Held p =>
      if b_native b && j_readonly j then Ok (s, Over)
      else Ok (mkS (s_rect s) (put b X Y p), Over)
  | Over => Ok (s, Over)
  end.

(** Several jobs at work; a schedule says which job takes the next step. *)
Definition jobs := list (job * phase).

Definition sched_step (sj : gsurf * jobs) (k : nat) : outcome (gsurf * jobs) :=
  let '(s, js) := sj in
  match nth_error js k with
  | None => Ok (s, js)
  | Some (j, ph) => let* (s', ph') := job_step s j ph in Ok (s', upd js k (j, ph'))
  end.

(** mypaint-tiled-surface.c lines 110-120 (end_atomic) run the tiles of the
    queue in parallel when the backend says its requests are thread safe,
    which this backend does for native buffers (line 209). *)
Definition run_schedule (sched : list nat) (s : gsurf) (js : jobs) : outcome (gsurf * jobs) :=
  ofold sched_step sched (s, js).

Definition all_over (js : jobs) : Prop := Forall (fun jp => snd jp = Over) js.

(** The same requests one after the other. *)
Definition one_job (s : gsurf) (j : job) : outcome gsurf :=
  let* (s', _) := ofold (fun sp (_ : nat) => job_step (fst sp) j (snd sp)) (seq 0 5) (s, Fresh) in
  Ok s'.

Definition run_jobs (l : list job) (s : gsurf) : outcome gsurf := ofold one_job l s.

(** A fresh GEGL buffer with the surface's format and tile size
    (lines 197-205). *)
Definition fresh_buf (r : grect) : gbuf := mkB true true r (fun _ _ => vblank).

(** mypaint_gegl_tiled_surface_new (lines 212-237). *)
Definition new_surface : gsurf :=
  let r := mkG 0 0 0 0 in mkS r (fresh_buf r).

(** mypaint_gegl_tiled_surface_set_buffer (lines 182-210), what happens to the
    picture; [None] stands for NULL.  The bounding box is left as it is. *)
Definition attach (s : gsurf) (b : option gbuf) : gsurf :=
  match b with
  | Some b => mkS (s_rect s) b
  | None => mkS (s_rect s) (fresh_buf (s_rect s))
  end.

End Backend.

(** ** References

    Buffers are numbered; [r_count] is the reference count of each buffer,
    [r_cur] the buffer of the surface ([None]: NULL), [r_next] the number of
    the next buffer that will be created. *)
Record refs := mkR { r_count : nat -> Z; r_cur : option nat; r_next : nat }.

Definition bump (f : nat -> Z) (k : nat) (d : Z) : nat -> Z :=
  fun i => if Nat.eqb i k then f i + d else f i.

(** g_object_unref (lines 190 and 244): a reference that does not exist any
    more must not be given back. *)
Definition unref (f : nat -> Z) (k : nat) : outcome (nat -> Z) :=
  if 0 <? f k then Ok (bump f k (-1)) else UB.

(** mypaint_gegl_tiled_surface_set_buffer (lines 182-210), the references. *)
Definition set_buffer_refs (r : refs) (b : option nat) : outcome refs :=
  match b, r_cur r with
  | Some k, Some c =>
      if Nat.eqb k c then Ok r
      else let* f := unref (r_count r) c in
           if 0 <? f k then Ok (mkR (bump f k 1) (Some k) (r_next r)) else UB
  | Some k, None =>
      if 0 <? r_count r k then Ok (mkR (bump (r_count r) k 1) (Some k) (r_next r)) else UB
  | None, Some c =>
      let* f := unref (r_count r) c in
      Ok (mkR (fun i => if Nat.eqb i (r_next r) then 1 else f i) (Some (r_next r)) (S (r_next r)))
  | None, None =>
      Ok (mkR (fun i => if Nat.eqb i (r_next r) then 1 else r_count r i) (Some (r_next r)) (S (r_next r)))
  end.

(** free_gegl_tiledsurf (lines 239-247). *)
Definition destroy_refs (r : refs) : outcome refs :=
  match r_cur r with
  | Some c => let* f := unref (r_count r) c in Ok (mkR f None (r_next r))
  | None => UB
  end.
