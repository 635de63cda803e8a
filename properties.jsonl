{"id": "C01", "title": "Queued dabs are delivered exactly once, in drawing order", "statement": "For every sequence of draw, flush and read calls on a tiled surface, the dabs that a tile receives are exactly the dabs drawn over that tile, each once, in the order they were drawn. Growing the internal tile index to cover far-away coordinates loses, duplicates or reorders nothing.", "quantifier": "every history of queue operations (add/pop/peek/list/clear) on arbitrary tile indices, including any number of index growths", "why_tests_cant": "a test exercises a handful of coordinates and histories; the claim is about all interleavings of growth, push and drain", "anchors": ["operationqueue.c: operation_queue_add, operation_queue_pop, operation_queue_resize, operation_queue_peek_first, operation_queue_peek_last", "tilemap.c: tile_map_get, tile_map_copy_to, tile_map_contains", "fifo.c: fifo_push, fifo_pop"]}
{"id": "C02", "title": "Every tile with pending dabs is flushed at the end of the atomic operation", "statement": "After any history in which every tile handed out by the dirty list was drained before the list was cleared, each tile with a pending dab is in the list of dirty tiles, and the list given to the flush loop has no tile twice and names only tiles that were drawn on.", "quantifier": "every history of add/pop/list/clear that follows the flush protocol of end_atomic and get_color", "why_tests_cant": "a missed tile only shows for particular histories (get_color in the middle, growth while dirty, re-dirtying)", "anchors": ["operationqueue.c: operation_queue_add, operation_queue_get_dirty_tiles, operation_queue_clear_dirty_tiles, remove_duplicate_tiles", "mypaint-tiled-surface.c: mypaint_tiled_surface_end_atomic, process_tile"]}
{"id": "C03", "title": "Drawing never aborts or overruns the dirty-tile list", "statement": "Queueing a dab never trips an assertion and never writes outside the dirty-tile array, whatever was drawn, read back and flushed before.", "quantifier": "every history of draw_dab / get_color / end_atomic", "why_tests_cant": "needs a history that fills the list completely; the failing histories are rare but legal", "anchors": ["operationqueue.c: operation_queue_add (assert), operation_queue_resize"]}
{"id": "C04", "title": "The flush result does not depend on the thread schedule", "statement": "When tile requests are thread-safe, end_atomic may process dirty tiles in parallel; the final pixels of every tile and the emptied queue are the same for every order and every interleaving of the worker threads' steps, and equal those of the sequential loop.", "quantifier": "every set of dirty tiles, every queue content, every interleaving of per-tile workers", "why_tests_cant": "schedules cannot be enumerated by running tests; races show up rarely", "anchors": ["mypaint-tiled-surface.c: mypaint_tiled_surface_end_atomic, process_tile", "operationqueue.c: operation_queue_pop", "tilemap.h"]}
{"id": "C05", "title": "Tile boundaries are invisible", "statement": "Drawing any sequence of dabs and flushing gives, at every pixel of the plane, the result of applying the per-pixel blend of each dab in drawing order, with the mask value that depends only on the pixel's position relative to the dab: neither the tiling nor the moment of flushing (get_color in between) changes a pixel.", "quantifier": "every sequence of dabs, reads and flushes; every pixel", "why_tests_cant": "an end-to-end refinement over unbounded histories and an unbounded plane", "anchors": ["mypaint-tiled-surface.c: draw_dab_internal, process_tile, process_op, render_dab_mask, mypaint_tiled_surface_end_atomic, get_color"]}
{"id": "C06", "title": "Ordinary blending keeps pixels valid", "statement": "Normal, eraser and lock-alpha dabs turn valid premultiplied 15-bit pixels (each colour <= alpha <= 2^15) into valid pixels; no intermediate 32-bit product or sum wraps and no 16-bit store truncates, for every mask value, opacity, colour and colour alpha up to 2^15.", "quantifier": "every pixel, mask value, brush colour, opacity in range; every sequence of dabs", "why_tests_cant": "2^120 input combinations; overflow is at the corner points", "anchors": ["brushmodes.c: draw_dab_pixels_BlendMode_Normal, draw_dab_pixels_BlendMode_Normal_and_Eraser, draw_dab_pixels_BlendMode_LockAlpha"]}
{"id": "C07", "title": "Lock-alpha, colorize and posterize never change coverage", "statement": "A dab drawn with only lock-alpha, colorize and/or posterize leaves the alpha of every pixel of the surface unchanged; fully transparent pixels stay fully transparent under them.", "quantifier": "every canvas, mask, opacity and colour", "why_tests_cant": "exhaustive over pixel contents", "anchors": ["brushmodes.c: draw_dab_pixels_BlendMode_LockAlpha, draw_dab_pixels_BlendMode_Color, draw_dab_pixels_BlendMode_Posterize, draw_dab_pixels_BlendMode_LockAlpha_Paint"]}
{"id": "C08", "title": "Colorize and posterize keep pixels valid", "statement": "Colorize and posterize dabs turn valid premultiplied pixels into valid pixels, without division by zero or integer wrap-around.", "quantifier": "every valid pixel, mask, opacity, colour and posterize level", "why_tests_cant": "the failing values are isolated points of a 2^100 input space", "anchors": ["brushmodes.c: draw_dab_pixels_BlendMode_Posterize, draw_dab_pixels_BlendMode_Color, set_rgb16_lum_from_rgb16"]}
{"id": "C09", "title": "Blending is monotone and has exact end points", "statement": "Zero opacity or zero mask leaves a pixel unchanged; full opacity with full mask sets exactly the dab colour (or erases to exactly zero with colour alpha 0); painting never lowers alpha, erasing never raises it; result alpha is monotone in opacity and in the previous alpha; each result channel lies between the old value and the dab's value (up to one unit of rounding when erasing or with locked alpha).", "quantifier": "every pixel value, mask value, opacity and colour", "why_tests_cant": "a statement about all values (rounding of the fixed-point arithmetic included)", "anchors": ["brushmodes.c: draw_dab_pixels_BlendMode_Normal, draw_dab_pixels_BlendMode_Normal_and_Eraser, draw_dab_pixels_BlendMode_LockAlpha"]}
{"id": "C10", "title": "A dab writes exactly the masked pixels of its tile", "statement": "The compressed dab mask always fits its fixed buffer, all its entries fit 16 bits, and stamping with it modifies exactly the pixels whose mask value is non-zero, each once, with its own mask value, and never touches memory outside the tile, for any position, size and shape of the dab.", "quantifier": "every opacity field over the tile and every clipping rectangle the renderer can produce", "why_tests_cant": "buffer bound and encoder/decoder agreement must hold for all masks", "anchors": ["mypaint-tiled-surface.c: render_dab_mask", "brushmodes.c: all draw_dab_pixels_* loops and get_color_pixels_*"]}
{"id": "C11", "title": "A dab only affects pixels near it", "statement": "A pixel whose distance from the dab centre exceeds radius+1 along an axis is left unchanged by the dab; every pixel the mask can reach lies in one of the tiles the dab was queued on, and in the rectangle recorded for it.", "quantifier": "every dab position, radius and shape, every pixel", "why_tests_cant": "all positions relative to tile borders, including negative coordinates", "anchors": ["mypaint-tiled-surface.c: draw_dab_internal, update_dirty_bbox, render_dab_mask"]}
{"id": "C12", "title": "Reported rectangles cover everything that changed", "statement": "Between begin_atomic and end_atomic, every pixel whose value differs at the end lies in one of the rectangles reported by end_atomic.", "quantifier": "every sequence of dabs (accepted or rejected), symmetry settings and reads inside the atomic operation; every capacity of the caller's array >= 1", "why_tests_cant": "depends on the history inside the atomic operation", "anchors": ["mypaint-tiled-surface.c: draw_dab, draw_dab_internal, update_dirty_bbox, mypaint_tiled_surface_end_atomic, prepare_bounding_boxes"]}
{"id": "C13", "title": "Rectangle growth is exact", "statement": "Expanding a rectangle to include a point or a non-empty rectangle yields the smallest rectangle that contains both; the order in which points are included does not matter.", "quantifier": "every rectangle and every point sequence within integer range", "why_tests_cant": "universally quantified geometry; minimality is not testable by samples", "anchors": ["mypaint-rectangle.c: mypaint_rectangle_expand_to_include_point, mypaint_rectangle_expand_to_include_rect"]}
{"id": "C14", "title": "Rectangle output respects the caller's capacity", "statement": "end_atomic never writes beyond the caller's rectangle array, reports min(capacity, boxes) rectangles, every internal box is contained in one reported rectangle, and with enough capacity they are reported one to one.", "quantifier": "every capacity >= 1, every number of boxes, every box content", "why_tests_cant": "rounding of the index distribution must be right for all pairs", "anchors": ["mypaint-tiled-surface.c: mypaint_tiled_surface_end_atomic"]}
{"id": "C15", "title": "Symmetry transforms are the named geometric symmetries", "statement": "With vertical/horizontal symmetry the extra dab is the mirror image across the (rotated) axis through the centre; with both there are also the perpendicular mirror image and the point reflection; rotational symmetry with n lines places the n dabs at the n rotations by 360/n degrees about the centre, snowflake additionally their mirror images. All are distance preserving and fix the centre.", "quantifier": "every centre, angle, number of lines and dab position (real arithmetic)", "why_tests_cant": "trigonometric identities for all angles", "anchors": ["mypaint-symmetry.c: mypaint_update_symmetry_state", "mypaint-matrix.c: all", "mypaint-tiled-surface.c: draw_dab"]}
{"id": "C16", "title": "Symmetry settings take effect only at begin_atomic", "statement": "set_symmetry_state during an atomic operation does not move the symmetry axes, the type or the number of lines used by dabs until the next begin_atomic; after begin_atomic the dabs use the settings requested last.", "quantifier": "every history of set_symmetry_state, begin_atomic and draw calls", "why_tests_cant": "history property", "anchors": ["mypaint-symmetry.c: mypaint_symmetry_set_pending, mypaint_update_symmetry_state", "mypaint-tiled-surface.c: mypaint_tiled_surface_begin_atomic, mypaint_tiled_surface_set_symmetry_state"]}
{"id": "C17", "title": "Symmetric drawing never leaves its arrays", "statement": "Whatever the requested number of lines and whichever allocations fail, drawing with symmetry reads only initialised transforms and writes only inside the rectangle array.", "quantifier": "every history of symmetry settings, every pattern of allocation failures, every dab", "why_tests_cant": "allocation failures and large line counts are not exercised by tests", "anchors": ["mypaint-symmetry.c: allocate_symmetry_matrices, num_matrices_required, mypaint_update_symmetry_state", "mypaint-tiled-surface.c: draw_dab, prepare_bounding_boxes"]}
{"id": "C18", "title": "The in-memory surface isolates its tiles", "statement": "On the fixed-size surface, writing a tile inside the canvas changes that tile only; writing a tile outside the canvas changes nothing and later reads of outside tiles give transparent pixels; no request accesses memory outside the allocation.", "quantifier": "every canvas size, every sequence of tile requests with arbitrary (also negative) indices", "why_tests_cant": "index arithmetic for all sizes", "anchors": ["mypaint-fixed-tiled-surface.c: tile_request_start, tile_request_end, mypaint_fixed_tiled_surface_new"]}
{"id": "C19", "title": "The random generator stays in [0,1) and in its buffer", "statement": "For every seed and any number of draws the generator returns numbers in [0,1), never reads outside its state array, and seeding always terminates.", "quantifier": "every seed, every number of draws", "why_tests_cant": "unbounded stream", "anchors": ["rng-double.c: rng_double_set_seed, rng_double_get_array, rng_double_cycle, rng_double_next"]}
{"id": "C20", "title": "Random streams are reproducible and independent of request granularity", "statement": "Two generators with the same seed produce the same stream, also when the generator was used before and is re-seeded; drawing from one generator never affects another; array requests of ten or more numbers continue the same sequence however they are split.", "quantifier": "every seed, every draw count, every interleaving of several generators", "why_tests_cant": "equality of infinite streams", "anchors": ["rng-double.c: rng_double_new, rng_double_next"]}
{"id": "C21", "title": "Setting curves are evaluated as the documented piecewise-linear functions", "statement": "With no active curve a setting evaluates to its base value whatever the inputs; an input with a curve contributes the linear interpolation of its control points: exactly the point's y at each point, between the neighbouring y values in between, on the extension of the first/last segment outside; contributions of different inputs add up.", "quantifier": "every sequence of curve edits, every control-point set with non-decreasing x, every input vector (exact arithmetic)", "why_tests_cant": "all curves, all inputs", "anchors": ["mypaint-mapping.c: mypaint_mapping_calculate, mypaint_mapping_set_n, mypaint_mapping_set_point"]}
{"id": "C22", "title": "The constant-curve shortcut is always accurate", "statement": "After any sequence of curve edits, a mapping reports being constant exactly when no input has control points; the engine's skipping of constant settings therefore never misses a change.", "quantifier": "every sequence of set_n/set_point calls", "why_tests_cant": "history invariant of a counter", "anchors": ["mypaint-mapping.c: mypaint_mapping_set_n, mypaint_mapping_is_constant, mypaint_mapping_get_n"]}
{"id": "C23", "title": "RGB and HSV conversions are inverse and stay in range", "statement": "rgb->hsv yields hue in [0,1), saturation and value in [0,1] and hsv->rgb yields components in [0,1]; hsv->rgb after rgb->hsv is the identity on [0,1]^3, and the other direction is the identity up to the hue/saturation of greys.", "quantifier": "every colour (exact arithmetic)", "why_tests_cant": "continuum of colours, sector boundaries", "anchors": ["helpers.c: rgb_to_hsv_float, hsv_to_rgb_float"]}
{"id": "C24", "title": "RGB and HSL conversions are inverse and stay in range", "statement": "hsl->rgb after rgb->hsl is the identity on [0,1]^3 and all results lie in [0,1].", "quantifier": "every colour (exact arithmetic)", "why_tests_cant": "continuum of colours", "anchors": ["helpers.c: rgb_to_hsl_float, hsl_to_rgb_float"]}
{"id": "C25", "title": "HCY conversions are inverse and stay in range", "statement": "rgb->hcy maps [0,1]^3 into [0,1]^3 and hcy->rgb is its inverse.", "quantifier": "every colour (exact arithmetic)", "why_tests_cant": "continuum of colours; luma coefficients", "anchors": ["helpers.c: rgb_to_hcy_float, hcy_to_rgb_float"]}
{"id": "C26", "title": "Angle helpers are correct everywhere", "statement": "The modulo helper returns the representative of the residue class in [0,N) for positive N; the angular difference of two directions is in [-180,180], congruent to b-a modulo 360 and the smallest such.", "quantifier": "every pair of angles (exact arithmetic)", "why_tests_cant": "all reals", "anchors": ["helpers.c: mod_arith, smallest_angular_difference"]}
{"id": "C27", "title": "Names identify settings, inputs and states uniquely", "statement": "Looking up the internal name of any setting or input returns that same id; unknown names return -1; no two settings, inputs share a name; every default lies within its documented range.", "quantifier": "every id and every string", "why_tests_cant": "every string", "anchors": ["mypaint-brush-settings.c: mypaint_brush_setting_from_cname, mypaint_brush_input_from_cname", "brushsettings.json"]}
{"id": "C28", "title": "Reference counting destroys exactly once", "statement": "For every sequence of ref/unref calls, a brush or surface is destroyed exactly when the last reference is dropped, never earlier, and at most once.", "quantifier": "every sequence of ref/unref in which no reference is used after being released", "why_tests_cant": "history property", "anchors": ["mypaint-brush.c: mypaint_brush_ref, mypaint_brush_unref", "mypaint-surface.c: mypaint_surface_ref, mypaint_surface_unref"]}
{"id": "C29", "title": "Smudge buckets are independent", "statement": "Setting one smudge bucket's colour state does not change what is read back for any other bucket, a value read back is the one written, and the engine uses the same bucket for the same number.", "quantifier": "every number of buckets, every valid bucket index and every sequence of writes", "why_tests_cant": "aliasing between buckets depends on the index pair", "anchors": ["mypaint-brush.c: mypaint_brush_set_smudge_bucket_state, mypaint_brush_get_smudge_bucket_state, fetch_smudge_bucket"]}
{"id": "C30", "title": "Resetting a brush erases its history", "statement": "After a brush is reset, its next stroke does not depend on anything painted before the reset: all dynamic state, including the colours stored in the smudge buckets, is back to its initial value.", "quantifier": "every history before the reset", "why_tests_cant": "all histories", "anchors": ["mypaint-brush.c: brush_reset, mypaint_brush_reset, mypaint_brush_stroke_to"]}
{"id": "C31", "title": "Stroke splitting reports follow the documented rule", "statement": "stroke_to asks for a stroke split (returns TRUE) only after something was painted, and when painting it asks only once the time limit is exceeded; an idle brush that painted nothing never asks to split but its clock is reset.", "quantifier": "every sequence of motion events", "why_tests_cant": "unbounded accumulated time", "anchors": ["mypaint-brush.c: mypaint_brush_stroke_to"]}
{"id": "C32", "title": "Event skipping conserves time", "statement": "When a motion event is skipped because of small distance (skip counter), its duration is not lost: the total time processed plus the time still held back equals the sum of the durations of all events received.", "quantifier": "every sequence of motion events", "why_tests_cant": "accumulation over unbounded histories", "anchors": ["mypaint-brush.c: mypaint_brush_stroke_to"]}
{"id": "C33", "title": "stroke_to never aborts on finite input", "statement": "For any finite coordinates, pressure, tilt and time the call returns; out-of-range values are sanitised.", "quantifier": "every argument vector of finite floats", "why_tests_cant": "thresholds such as 1e8 and 1e10 are not in tests", "anchors": ["mypaint-brush.c: mypaint_brush_stroke_to"]}
{"id": "C34", "title": "Dab spacing accounts for every event completely", "statement": "Processing a motion event paints as many dabs as the accumulated dab count requires: after it the fractional remainder is in [0,1), the sum of dabs drawn plus remainder equals the sum of dab demands, dabs are placed between the previous and the new position, and the loop terminates.", "quantifier": "every sequence of events with positive finite demand", "why_tests_cant": "accumulation over unbounded sequences", "anchors": ["mypaint-brush.c: mypaint_brush_stroke_to (dab loop), count_dabs_to"]}
{"id": "C35", "title": "Loading defaults makes settings independent of history", "statement": "After from_defaults every base value equals the documented default and every curve equals the documented default curve, whatever the brush was before.", "quantifier": "every prior brush state", "why_tests_cant": "all histories", "anchors": ["mypaint-brush.c: mypaint_brush_from_defaults, mypaint_brush_set_base_value, mypaint_brush_set_mapping_n"]}
{"id": "C36", "title": "Loading a brush file never aborts and applies exactly what it says", "statement": "from_string returns TRUE or FALSE for every document; on TRUE every setting in the file has the base value and curve given there.", "quantifier": "every well-formed JSON document", "why_tests_cant": "malformed documents are unbounded", "anchors": ["mypaint-brush.c: mypaint_brush_from_string, update_brush_from_json_object, update_brush_setting_from_json_object"]}
{"id": "C37", "title": "Dab geometry stays within engine limits", "statement": "The radius of every dab the brush draws is between 0.2 and 1000 pixels and the directional offset is bounded by 3240 pixels per axis, whatever the settings and inputs.", "quantifier": "every brush setting, every input, every state", "why_tests_cant": "all setting values", "anchors": ["mypaint-brush.c: prepare_and_draw_dab, directional_offsets, update_states_and_setting_values"]}
{"id": "C38", "title": "Colour sampling is a bounded average", "statement": "get_color returns components in [0,1]; each legacy-sampled channel lies between the smallest and the largest value in the sampled area; a fully transparent area gives alpha 0; the 32-bit accumulators cannot wrap.", "quantifier": "every canvas content, every mask", "why_tests_cant": "all contents", "anchors": ["brushmodes.c: get_color_pixels_legacy, get_color_pixels_accumulate", "mypaint-tiled-surface.c: get_color"]}
{"id": "C39", "title": "get_color sees every dab drawn before it", "statement": "Reading a colour applies all pending dabs of the tiles it looks at, and does not otherwise change the surface: later flushes produce the same pixels as if the colour had not been read.", "quantifier": "every history of draw_dab and get_color", "why_tests_cant": "history property", "anchors": ["mypaint-tiled-surface.c: get_color, process_tile"]}
{"id": "C40", "title": "A failed tile request loses nothing else", "statement": "If the tile backend cannot provide a tile once, the dabs on other tiles are painted normally and dabs drawn later on the failing tile are flushed by their own end_atomic.", "quantifier": "every history with arbitrary backend failures", "why_tests_cant": "failure injection over all histories", "anchors": ["mypaint-tiled-surface.c: process_tile, mypaint_tiled_surface_end_atomic", "operationqueue.c: operation_queue_add"]}
{"id": "C41", "title": "Dab opacity profile is bounded and monotone", "statement": "The opacity of a dab as a function of squared distance is 1-softness at the centre, never increases with distance, stays within [0,1] and vanishes at and beyond the fringe.", "quantifier": "every hardness in (0,1], softness in [0,1], distance (exact arithmetic)", "why_tests_cant": "continuum", "anchors": ["mypaint-tiled-surface.c: calculate_opa, render_dab_mask"]}
{"id": "C42", "title": "Queue memory is released", "statement": "Freeing a surface releases every dab still queued; draining and freeing releases all queue memory exactly once.", "quantifier": "every queue content at the time of freeing", "why_tests_cant": "leaks depend on content", "anchors": ["fifo.c: fifo_free", "operationqueue.c: operation_queue_free, free_fifo, operation_queue_pop"]}
{"id": "C43", "title": "Colour sampling of large areas never divides by zero", "statement": "get_color returns for every radius accepted by the API.", "quantifier": "every finite radius", "why_tests_cant": "isolated failing radii", "anchors": ["mypaint-tiled-surface.c: get_color", "brushmodes.c: get_color_pixels_accumulate"]}
{"id": "C44", "title": "Affine transform composition behaves as composition", "statement": "Combining transforms and then transforming a point equals transforming in sequence; composition is associative with the unit as neutral element; clockwise and counter-clockwise rotations by the same angle cancel; reflecting twice is the identity.", "quantifier": "every matrix, angle and point (exact real arithmetic)", "why_tests_cant": "continuum", "anchors": ["mypaint-matrix.c: all"]}
{"id": "C45", "title": "Event time filtering interpolation stays between endpoints", "statement": "The low-pass filter factor used for state updates is in [0,1] for non-negative time, so filtered states (slow position, speed, slow tracking) always lie between their previous value and the target.", "quantifier": "every time constant and time step (exact real arithmetic)", "why_tests_cant": "continuum", "anchors": ["mypaint-brush.c: exp_decay, update_states_and_setting_values"]}
{"id": "C46", "title": "Spectral colour mixing stays in gamut and has exact end points", "statement": "Mixing two colours by factor 1 or 0 returns the first or second colour's spectral rendering; mixed reflectances lie between those of the two colours.", "quantifier": "every pair of colours and every factor in [0,1] (exact real arithmetic)", "why_tests_cant": "continuum", "anchors": ["helpers.c: mix_colors, rgb_to_spectral, spectral_to_rgb"]}
{"id": "C47", "title": "The random generator never degenerates", "statement": "For every seed the generated sequence follows the lagged recurrence x(n+10) = x(n) + x(n+3) modulo 2^52 for ever and among any ten consecutive elements at least one is odd, so the state can never collapse to all zeros or to a short all-even subsequence.", "quantifier": "every seed, every position of the stream", "why_tests_cant": "infinite stream, 2^30 distinct seedings", "anchors": ["rng-double.c: rng_double_set_seed, rng_double_get_array, rng_double_next"]}
{"id": "C48", "title": "Pigment painting is well defined and keeps pixels valid", "statement": "Painting with pigment (the spectral variants of normal painting, erasing and lock-alpha) computes a defined result for every valid pixel, mask value, opacity and colour: no float overflows or NaN reaches an integer conversion although colours pass through ten reflectances and an approximate power function made of bit tricks. The result is a valid premultiplied pixel whose alpha is that of the ordinary mode. So every pixel of a surface stays valid through every history of pigment dabs.", "quantifier": "every valid pixel, mask value, opacity, brush colour and colour alpha; every history of dabs, reads and flushes", "why_tests_cant": "2^120 inputs per pixel; the failing pixels are the faintest ones, alpha 1 of 32768", "anchors": ["brushmodes.c: draw_dab_pixels_BlendMode_Normal_Paint, draw_dab_pixels_BlendMode_Normal_and_Eraser_Paint, draw_dab_pixels_BlendMode_LockAlpha_Paint, spectral_blend_factor", "helpers.c: rgb_to_spectral, spectral_to_rgb", "fastapprox/fastpow.h: fastpow", "fastapprox/fastlog.h: fastlog2", "fastapprox/fastexp.h: fastpow2"]}
{"id": "C49", "title": "A painting session always runs to completion", "statement": "Any sequence of calls on a tiled surface - choosing a symmetry, begin_atomic, drawing dabs, reading colours, end_atomic with or without a rectangle array - returns from every call: nothing undefined is executed, no array is overrun and the program does not abort, whatever tiles the backend refuses and whatever allocations of transforms fail. Needed of the caller: finite settings of ordinary size, an array with room for a rectangle, and either no reads or one untouched tile near the origin between two end_atomic calls.", "quantifier": "every history of calls, every settings of the dabs, every refusal by the backend, every failing allocation of transforms", "why_tests_cant": "unbounded histories; failures need a particular combination of queue growth, reads and extreme settings", "anchors": ["mypaint-tiled-surface.c: draw_dab, begin_atomic, end_atomic, get_color, process_tile, prepare_bounding_boxes", "operationqueue.c: operation_queue_add, operation_queue_get_dirty_tiles", "tilemap.c: tile_map_resize", "brushmodes.c: all draw_dab_pixels functions", "mypaint-symmetry.c: mypaint_update_symmetry_state"]}
{"id": "C50", "title": "On a GEGL-backed surface painting reaches the picture and nothing else changes", "statement": "After any tile requests on a GEGL-backed surface - by one thread or several, for painting or for reading, on the buffer the surface made or one the program gave it - reading the buffer gives the old picture with the painted tiles replaced. Requests for reading do not change it. The surface holds exactly one reference to its current buffer and gives it back when the buffer is replaced or the surface destroyed.", "quantifier": "every buffer contents and format, every list of requests, every interleaving of the requests of several threads, every sequence of set_buffer calls", "why_tests_cant": "thread schedules; losing a tile takes two requests meeting within a few instructions", "anchors": ["gegl/mypaint-gegl-surface.c: tile_request_start, tile_request_end, mypaint_gegl_tiled_surface_set_buffer, mypaint_gegl_tiled_surface_new, free_gegl_tiledsurf", "mypaint-tiled-surface.c: mypaint_tiled_surface_end_atomic"]}
{"id": "C51", "title": "Pigment painting mixes colours like paint, to within a stated error", "statement": "Painting with pigment gives, for every pixel where it is defined, the colour obtained by splitting brush and canvas colour into ten reflectances, taking their geometric mean weighted by the brush's share of the result and converting back (for the eraser: blended with ordinary painting by a fixed curve of the canvas alpha). The stored result, computed with single precision floats and an approximate power function made of bit tricks, differs from the ideal real-number value by less than 9/10000 of the alpha plus the rounding to integers, under a quarter of an 8-bit step. In particular painting a colour over itself keeps it, a dab of full weight gives the brush colour, a dab of no weight leaves the pixel, all up to that error.", "quantifier": "every valid pixel, mask value, opacity, brush colour and colour alpha, all three pigment modes", "why_tests_cant": "2^120 inputs per pixel, and the reference value is a real number; the worst case of the power approximation cannot be found by sampling", "anchors": ["brushmodes.c: draw_dab_pixels_BlendMode_Normal_Paint, draw_dab_pixels_BlendMode_Normal_and_Eraser_Paint, draw_dab_pixels_BlendMode_LockAlpha_Paint, spectral_blend_factor", "helpers.c: rgb_to_spectral, spectral_to_rgb", "fastapprox/fastpow.h: fastpow", "fastapprox/fastlog.h: fastlog2", "fastapprox/fastexp.h: fastpow2"]}
{"id": "C52", "title": "A whole painting program never crashes", "statement": "A program that creates a brush and a tiled surface, sets the brush up, and then feeds tablet events to it - with begin_atomic, end_atomic, resets, new strokes, changes of settings and of the symmetry and colour picking in between - never aborts and never executes anything undefined in either half, whatever the tablet sends: any times, zooms and barrel rotations (even not a number), positions that are garbage, any order of the calls. Every number the brush engine computes on the way from an event to a dab stays finite and within the limits the surface needs. Needed of the program: brush settings and symmetries that stay within generous ranges, colours not picked in the middle of an operation, memory for the rectangles of a snowflake. In particular the default brush, with any colour, size and symmetry, can paint any strokes.", "quantifier": "every sequence of events and calls, every brush within the ranges, every refusal by the backend, every random sequence, every conforming C library", "why_tests_cant": "unbounded sequences of events with 10 float arguments each; the failures sit at overflow and NaN corners of some 200 float operations per dab", "anchors": ["mypaint-brush.c: mypaint_brush_stroke_to, prepare_and_draw_dab, update_states_and_setting_values, count_dabs_to, mypaint_brush_from_defaults, mypaint_brush_set_base_value", "mypaint-surface.c: mypaint_surface_draw_dab, mypaint_surface_begin_atomic, mypaint_surface_end_atomic", "mypaint-tiled-surface.c: draw_dab, begin_atomic, end_atomic, get_color"]}
{"id": "C53", "title": "Every pen event comes to an end", "statement": "The call that takes a tablet event to the brush always returns: the loop that sets dabs until the pen's position is reached ends, although each round recomputes, in float arithmetic, how far the brush has come, how many dabs are to go and how much time is left, and although the settings, the position of the brush (tracking noise) and its speed change with every dab. The number of dabs of one event is bounded beforehand by the spacing of the brush and the size of the picture: 130 times dabs per radius times size plus 100 times dabs per second, plus ten. Needed: round dabs, a picture not too large for the spacing, and what C52 asks for. For the default brush, with any colour and size: every sequence of strokes within 65536 pixels ends, after at most 260 dabs per pixel of picture size and event.", "quantifier": "every sequence of events and calls, every brush with bounded spacing, every random sequence, every conforming C library", "why_tests_cant": "a test cannot tell a loop that ends late from one that never ends; whether it ends hangs on float rounding - a dab fraction below the last digit of the position does not move the brush - in states reached only after long histories", "anchors": ["mypaint-brush.c: mypaint_brush_stroke_to_internal, count_dabs_to, update_states_and_setting_values, mypaint_brush_from_defaults", "mypaint-brush-settings.c: settings"]}
{"id": "C54", "title": "The colour one chooses is the colour that is painted", "statement": "In the single precision arithmetic the library really uses: converting any finite colour to HSV or HSL, and any saturation, value or lightness with any hue within a million turns back, gives components between 0 and 1. Converting a colour to HSL and back changes no component by more than 4 millionths; to HSV and back likewise, except that colours which are nearly but not exactly grey (components differing by up to about 1/10000) may move by that difference. A brush with smudging and the five colour dynamics off paints every dab of every event in one and the same colour, the one its colour settings say, whatever was done with it before and on whatever surface; so when a program converts a colour to HSV and gives it to the brush, the colour of every dab is that colour up to these errors.", "quantifier": "every colour (2^90 triples of floats in range), every hue, every brush with these settings, every history of calls and events, every surface and random source", "why_tests_cant": "2^90 colours; the branches on the largest component, on the hue sector and on near-equal components meet rounding errors exactly at their borders", "anchors": ["helpers.c: rgb_to_hsv_float, hsv_to_rgb_float, rgb_to_hsl_float, hsl_to_rgb_float", "mypaint-brush.c: prepare_and_draw_dab, mypaint_brush_stroke_to, mypaint_brush_set_base_value"]}
{"id": "C55", "title": "A stroke painted elsewhere is the same stroke", "statement": "Moving every tablet event by a whole number of pixels moves the painting and changes nothing else: the brush answers every event the same, and asks for the same dabs in the same order, each moved by that many pixels, with the same size, shape, colour and all other parameters - with any dynamics, random sequence, tracking noise, snapping to pixels and spacing, and whatever the brush did before its reset. Not covered: brushes with dynamics over the position on the canvas grid, and smudging brushes; smudging is in fact not the same at negative coordinates. Slow tracking is allowed only within a stroke, not at its start.", "quantifier": "exact real arithmetic; every list of events, every displacement by whole pixels, every brush without grid dynamics and smudging, every random source, every surface that treats the moved dabs as it treats the dabs", "why_tests_cant": "a relation between two runs over all event lists, settings and displacements; 44 state variables are carried from dab to dab and any of them could keep an absolute position", "anchors": ["mypaint-brush.c: mypaint_brush_stroke_to_internal, prepare_and_draw_dab, update_states_and_setting_values, count_dabs_to, mypaint_brush_reset"]}
{"id": "C56", "title": "Hovering paints nothing", "statement": "While the pen is up, events without pressure (zero or negative) never change the picture when the brush takes its opacity from pressure, as the default brush does: every dab the engine draws for them has opacity exactly zero, and a tiled surface changes no pixel, queues nothing and reports nothing painted for such a dab. The pen is up on a new brush; and after any history of strokes with pressures of at most one, a single event without pressure that is not held back lifts it, however fast the pen moved. It stays up through any number of such events, mixed with resets, new strokes and changes of settings.", "quantifier": "every brush whose opacity vanishes at zero pressure, every history of calls and events (pressures finite and at most one before lifting, not written into the brush by hand), every position, time step and tilt, every random source, every surface; in C floats, for every mathematical library with powf(1,y) = 1", "why_tests_cant": "all histories: the engine interpolates the pressure over dabs in floats, and any rounding residue left after lifting the pen would keep painting a faint trace", "anchors": ["mypaint-brush.c: mypaint_brush_stroke_to_internal, update_states_and_setting_values, prepare_and_draw_dab, mypaint_brush_from_defaults", "mypaint-mapping.c: mypaint_mapping_calculate", "mypaint-tiled-surface.c: draw_dab_internal, draw_dab"]}
{"id": "C57", "title": "Choosing a colour changes only the colour", "statement": "Two programs that start with the same brush and make the same calls, except for what they say about the colour settings (colour, restoring the colour, the change-colour settings: values and curves), ask for the same dabs in other colours: the same number in the same order, at the same places, with the same size, shape, opacity, hardness and all other parameters; every pen event gets the same answer, the states of the brush agree, and a tiled surface reports the same changed rectangles at the end of every operation. Not covered: brushes that smudge.", "quantifier": "every list of calls and pen events, every brush that does not smudge, all values and curves of the nine colour settings, every mathematical library and random source, every surface whose answers do not depend on colours; in C floats", "why_tests_cant": "a relation between two runs of arbitrary length: the settings share one table of curves, one random sequence and one set of states, and any of them could carry a colour into the geometry of a later dab", "anchors": ["mypaint-brush.c: mypaint_brush_stroke_to_internal, prepare_and_draw_dab, update_states_and_setting_values, count_dabs_to, mypaint_brush_set_base_value, mypaint_brush_set_mapping_n, mypaint_brush_set_mapping_point", "mypaint-tiled-surface.c: draw_dab, draw_dab_internal, mypaint_tiled_surface_begin_atomic, mypaint_tiled_surface_end_atomic"]}
{"id": "C58", "title": "What is already painted has no influence on a stroke", "statement": "A brush that does not smudge paints the same on every picture: the same calls and pen events, on two surfaces that answer drawing requests alike, get the same answers, leave the brush in the same state and ask for exactly the same dabs. On a tiled surface, starting from two pictures, everything but the pictures is the same afterwards - queue, changed rectangles, symmetry - and the pictures agree on every tile on which they agreed before; so painting on one part of a picture never depends on what another part shows. For the default brush in any colour and size this needs no provisos: every sequence of strokes within 65536 pixels is painted on both pictures. A smudging brush does depend on the picture.", "quantifier": "every program of calls and strokes, every brush with smudging off, every two pictures, every random source and mathematical library; in C floats", "why_tests_cant": "a relation between two runs over all pictures and all programs; a test compares one program on a few chosen pictures", "anchors": ["mypaint-brush.c: mypaint_brush_stroke_to_internal, prepare_and_draw_dab, update_smudge_color, mypaint_brush_from_defaults", "mypaint-tiled-surface.c: draw_dab, draw_dab_internal, process_tile, end_atomic", "operationqueue.c: operation_queue_pop"]}
