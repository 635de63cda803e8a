{
 "claims": [
  {
   "property": "C01",
   "status": "proved",
   "theorems": [
    "C01_exactly_once_in_order",
    "C01_drain_delivers_rest",
    "C42_exact_leak_partial"
   ],
   "note": "Queue level: per tile the delivered dabs are a prefix of the queued dabs, in order, and draining delivers the rest. The linked-list level (heap model of fifo.c) is covered by C42_exact_leak_partial: what is processed is a prefix of what was queued and nothing dangling is touched."
  },
  {
   "property": "C02",
   "status": "proved",
   "theorems": [
    "C02_dirty_list_complete"
   ],
   "note": ""
  },
  {
   "property": "C03",
   "status": "partial",
   "theorems": [
    "C03_never_aborts_refuted",
    "C03_far_tile_refuted",
    "C03_never_aborts_partial",
    "C03_abort_only_when_full_partial"
   ],
   "note": "The claim as stated is false: an atomic operation with colour reads in between can overflow the dirty list (assert), and tiles at index >= 23170 overflow int arithmetic. Proved: no abort when no tile is redrawn after a pop within one atomic and tiles are in range; and the abort happens only when the list is full."
  },
  {
   "property": "C04",
   "status": "proved",
   "theorems": [
    "C04_every_schedule_like_sequential",
    "C04_sequential_like_some_schedule"
   ],
   "note": "Workers make arbitrary small steps on their own tile buffer and atomic pops from the queue; every interleaving is quantified. Trusted: a backend that declares its tile requests thread-safe gives each worker its own buffer, and the slots of the tile map are distinct memory (no C11 memory-model reasoning below that)."
  },
  {
   "property": "C05",
   "status": "partial",
   "theorems": [
    "C05_pixel_history_partial",
    "C05_read_sees_pixels_partial",
    "C05_pixels_without_symmetry_partial",
    "C05_translation",
    "C05_flush_paints_in_order",
    "C05_tile_boundary_refuted"
   ],
   "note": "Every pixel is its start value folded through the placed dabs in call order, each a function of the position relative to the dab, for every history whose tile requests are granted. Proved for dabs whose local coordinates are exact in binary32; otherwise the tile grid shows through by one unit (witness proved)."
  },
  {
   "property": "C06",
   "status": "proved",
   "theorems": [
    "C06_blend_exact_and_valid",
    "C06_any_dab_sequence",
    "C06_surface_stays_valid"
   ],
   "note": "Normal, Normal_and_Eraser and LockAlpha, with explicit 16/32-bit wrap-around in the model; result equals the unbounded-integer formula. C06_surface_stays_valid: all pixels of the surface, for every history of dabs, reads, flushes, symmetry."
  },
  {
   "property": "C07",
   "status": "proved",
   "theorems": [
    "C07_alpha_unchanged",
    "C07_transparent_stays",
    "C07_surface_alpha_unchanged"
   ],
   "note": "LockAlpha, LockAlpha_Paint (for every result of the spectral mix), Color, Posterize. C07_surface_alpha_unchanged: all pixels of the surface, for every history of such dabs."
  },
  {
   "property": "C08",
   "status": "partial",
   "theorems": [
    "C08_colorize_crashes_refuted",
    "C08_black_on_white_refuted",
    "C08_colorize_invalid_refuted",
    "C08_posterize_invalid_refuted",
    "C08_colorize_partial",
    "C08_posterize_partial",
    "C08_posterize_no_rounding_error"
   ],
   "note": "The full statement is false of the code: colorize divides by zero or produces invalid pixels on pure white, posterize produces channels above alpha on translucent pixels. The positive theorems show these are the only failures."
  },
  {
   "property": "C09",
   "status": "proved",
   "theorems": [
    "C09_zero_opacity",
    "C09_full_opacity",
    "C09_alpha_direction",
    "C09_normal_between",
    "C09_eraser_lock_between",
    "C09_eraser_between_exact_refuted",
    "C09_alpha_monotone",
    "C09_erase_monotone"
   ],
   "note": "Betweenness of colour channels holds up to one unit of rounding for the eraser and lock-alpha modes; the refutation shows the unit is needed."
  },
  {
   "property": "C10",
   "status": "partial",
   "theorems": [
    "C10_stamp_exact",
    "C10_fits_small",
    "C10_fits_engine_partial",
    "C10_values_defined",
    "C10_fits_partial",
    "C10_no_holes_in_exact_arithmetic"
   ],
   "note": "Bit-exact. Everything but one step: that the mask fits its buffer is proved for radius <= 22 (any shape), for radius up to 1010 (all that the brush engine draws) except when hardness*(1-softness) is within a millionth of 2^-15, and, for larger radius, from the absence of holes in rows, which is proved there in exact arithmetic only."
  },
  {
   "property": "C11",
   "status": "partial",
   "theorems": [
    "C11_far_pixels_unchanged_partial",
    "C11_reached_pixels_recorded_partial"
   ],
   "note": "Every history, every pattern of refused requests, bit-exact arithmetic. Missing: dabs beyond a million pixels from the origin, radii above 65536 and denormal hardness."
  },
  {
   "property": "C12",
   "status": "partial",
   "theorems": [
    "C12_changes_reported_partial",
    "C12_rejected_dab_refuted",
    "C12_symmetry_off_refuted"
   ],
   "note": "Proved for regular dabs when the last dab of the operation was accepted and symmetry stays on; the full claim is false of the code in both other cases (witnesses proved)."
  },
  {
   "property": "C13",
   "status": "proved",
   "theorems": [
    "C13_include_point_is_smallest",
    "C13_include_rect_is_smallest",
    "C13_order_irrelevant",
    "C13_include_empty_rect_refuted"
   ],
   "note": "Coordinates below 2^29 in absolute value (int arithmetic is checked). Including an empty rectangle is outside the claim and does grow the box (refuted theorem)."
  },
  {
   "property": "C14",
   "status": "proved",
   "theorems": [
    "C14_output_fits_and_covers",
    "C14_huge_number_of_boxes_refuted",
    "C14_capacity_zero_refuted"
   ],
   "note": "Up to 2^24 boxes: the index goes through float, beyond that it can exceed the array (witness proved)."
  },
  {
   "property": "C15",
   "status": "proved",
   "theorems": [
    "C15_named_symmetries",
    "C15_rigid",
    "C15_mirror"
   ],
   "note": "over the reals; line counts up to 2^22. The image statement covers position and footprint (aspect ratio, angle)."
  },
  {
   "property": "C16",
   "status": "proved",
   "theorems": [
    "C16_in_force_since_begin_atomic",
    "C16_no_effect_before_begin",
    "C16_after_failed_allocation_refuted"
   ],
   "note": "over the reals, line counts up to 2^22, allocations succeed; after a failed allocation the claim is false (witness proved)."
  },
  {
   "property": "C17",
   "status": "partial",
   "theorems": [
    "C17_in_bounds_partial",
    "C17_rectangle_allocation_failure_refuted",
    "C17_huge_line_count_refuted"
   ],
   "note": "Proved for up to four million lines when the rectangle allocations succeed or no snowflake is used, whichever transform allocations fail. The full claim is false of the code: both witnesses are proved."
  },
  {
   "property": "C18",
   "status": "proved",
   "theorems": [
    "C18_requests_refine_plane",
    "C18_isolation",
    "C18_tiles_are_disjoint",
    "C18_new_surface",
    "C18_large_canvas_refuted",
    "C18_long_canvas_refuted"
   ],
   "note": "For every canvas the constructor accepts; canvases of 2^29 pixels or more overflow int in the size check, and a width of 16777281 fails an assert (witnesses proved)."
  },
  {
   "property": "C19",
   "status": "proved",
   "theorems": [
    "C19_safe_and_in_range"
   ],
   "note": "Bit-exact doubles; array accesses bounds- and initialisation-checked; the seeding loop ends after at most 37 rounds for every seed."
  },
  {
   "property": "C20",
   "status": "proved",
   "theorems": [
    "C20_stream_is_a_function_of_the_seed",
    "C20_same_seed_same_numbers",
    "C20_generators_do_not_interact",
    "C20_interleaved_drawing_is_safe",
    "C20_array_requests_concatenate",
    "C20_small_array_requests_skip"
   ],
   "note": "The k-th draw is x(19(k/10)+k mod 10)/2^52 for an exact integer sequence. Array requests below ten numbers skip ahead (C20_small_array_requests_skip), so splitting is stated for requests of at least ten."
  },
  {
   "property": "C21",
   "status": "proved",
   "theorems": [
    "C21_evaluation",
    "C21_contribution_unique",
    "C21_interpolation",
    "C21_through_points",
    "C21_between_neighbours",
    "C21_sum",
    "C21_float_accuracy",
    "C21_points_stay_ordered_refuted"
   ],
   "note": "Evaluation theorem for every number type (bit exact for C float); interpolation facts in exact arithmetic; bit-exact error bound inside a segment. C21_points_stay_ordered_refuted records that the API lets x values get out of order."
  },
  {
   "property": "C22",
   "status": "proved",
   "theorems": [
    "C22_edits_succeed_iff_legal",
    "C22_constant_iff_no_points",
    "C22_constant_is_constant"
   ],
   "note": ""
  },
  {
   "property": "C23",
   "status": "partial",
   "theorems": [
    "C23_ranges",
    "C23_round_trip_partial",
    "C23_round_trip_back_partial",
    "C23_near_grey_refuted"
   ],
   "note": "Ranges for every input. Exact identity for greys and colours whose components differ by more than 1/10000; within 1/10000 for all others, where the identity is false (witness proved). Exact real arithmetic; bit-exact versions with error bounds are C54_ranges and C54_hsv_round_trip."
  },
  {
   "property": "C24",
   "status": "proved",
   "theorems": [
    "C24_ranges",
    "C24_round_trip",
    "C24_round_trip_back"
   ],
   "note": "Exact real arithmetic; both directions. Bit-exact versions with error bounds are C54_ranges and C54_hsl_round_trip."
  },
  {
   "property": "C25",
   "status": "partial",
   "theorems": [
    "C25_gamut_partial",
    "C25_round_trip_partial",
    "C25_refuted"
   ],
   "note": "False of the code: the luma weights add up to 1.0036 (digits of the red weight swapped), so white has luma above 1 and pale yellows change by more than 0.04 (witnesses proved). Proved: results always in gamut, round trip exact when a component is 0 and off by at most 1/20 otherwise, except when the luma is exactly 1 (division by zero)."
  },
  {
   "property": "C26",
   "status": "proved",
   "theorems": [
    "C26_modulo",
    "C26_angular_difference",
    "C26_float_modulo_refuted"
   ],
   "note": "Exact real arithmetic, all angles. The last theorem records that in C floats the modulo helper can return N itself."
  },
  {
   "property": "C27",
   "status": "proved",
   "theorems": [
    "C27_setting_names",
    "C27_input_names",
    "C27_names_differ",
    "C27_defaults_in_range"
   ],
   "note": "tables transcribed by script from brushsettings.json; lookup functions modelled"
  },
  {
   "property": "C28",
   "status": "proved",
   "theorems": [
    "C28_destroyed_with_last_reference"
   ],
   "note": "sequential reference counting of brushes and surfaces"
  },
  {
   "property": "C29",
   "status": "partial",
   "theorems": [
    "C29_read_back_partial",
    "C29_out_of_range",
    "C29_engine_independent",
    "C29_dab_other_buckets",
    "C29_event_other_buckets",
    "C29_events_other_buckets",
    "C29_neighbours_refuted",
    "C29_engine_refuted"
   ],
   "note": "What is proved: a value read back is the one written (as long as no neighbouring bucket is written in between), out-of-range indices are refused, two buckets the engine itself uses never overlap, a dab changes no bucket but the one the smudge_bucket setting names, and a brush with a fixed bucket number puts nothing into another bucket over any list of events (its numbers stay or are zeroed by a reset). What is false of the code and refuted: the API addresses bucket i at float offset i instead of 9*i, so writing bucket i+1 overwrites part of bucket i, and the API and the engine do not mean the same bucket."
  },
  {
   "property": "C30",
   "status": "partial",
   "theorems": [
    "C30_states_erased",
    "C30_none_used",
    "C30_buckets_partial",
    "C30_buckets_refuted",
    "C30_exact_partial",
    "C30_position_refuted"
   ],
   "note": "All dynamic states are erased by the first event after a reset, for every history, and no bucket is reported as used any more. Buckets: all used buckets are emptied only when the lowest used one is bucket 0; otherwise the last one keeps its sampled colour (refuted). In exact arithmetic the stroke after a reset is the same for any two histories (same settings, slow tracking off, buckets as above); in floats even the position depends on the past (refuted). Hypothesis in_one_go: the event is not split into two by the long-pause rule."
  },
  {
   "property": "C31",
   "status": "partial",
   "theorems": [
    "C31_rule_partial",
    "C31_painting",
    "C31_refuted"
   ],
   "note": "The claim as stated is false: stroke_to asks for a split although nothing was ever painted, and asks again with the next event (C31_refuted, bit-exact). Proved instead, in exact arithmetic and for every call history since new_stroke: the exact rule for the answer, and that a painting movement asks only beyond 4+3*pressure seconds."
  },
  {
   "property": "C32",
   "status": "partial",
   "theorems": [
    "C32_conserved_partial",
    "C32_float_refuted",
    "deeds_forget",
    "run_history"
   ],
   "note": "Exact real arithmetic: over every call history (events, resets, setting edits), the processed time (durations of all simulation steps, or the time of a restart) plus the time held back equals the time held before plus all durations. With C floats false: the held time is a float, so a short event is absorbed (refuted bit-exactly). Missing: a bound on the float error."
  },
  {
   "property": "C33",
   "status": "partial",
   "theorems": [
    "C33_aborts_iff",
    "C33_never_aborts_partial",
    "C33_refuted",
    "C33_returns_partial",
    "C33_undefined_refuted"
   ],
   "note": "As stated the claim is false: every brush aborts when a coordinate lies between 10^8 and 10^10 in magnitude (C33_refuted), and a curve with a control point that was never entered is read uninitialised (C33_undefined_refuted). Proved bit-exactly: for any brush, random source and surface that do not abort themselves, stroke_to aborts exactly on such far positions and on NaN tilts (C33_aborts_iff), so never when |x|,|y| < 10^8 (C33_never_aborts_partial); and a brush with complete curves, no smudging, no colour dynamics and a bounded base hue takes every sequence of acceptable events without abort or undefined behaviour (C33_returns_partial). Missing: freedom from undefined behaviour for smudging brushes and brushes with colour dynamics. What is assumed of the C library is the record c_library."
  },
  {
   "property": "C34",
   "status": "partial",
   "theorems": [
    "C34_walk_partial",
    "C34_count_partial",
    "C34_ends_partial",
    "C34_remainder_partial",
    "C34_endless_refuted"
   ],
   "note": "exact real arithmetic, every brush, dynamics, random sequence and surface: position reached, dabs on the line in order, dabs + remainder = old remainder + demands, remainder in [0,1) after every event sequence, closed formula for steady brushes, termination under bounded densities. With C floats termination is refuted by a reachable brush with documented densities at x = 2^22 whose dab loop provably cycles for ever."
  },
  {
   "property": "C35",
   "status": "proved",
   "theorems": [
    "C35_defaults",
    "C35_independent"
   ],
   "note": "For every reachable brush (any sequence of API calls), loading the defaults succeeds; every setting then has its documented default and no curve, except opaque_multiply, which follows pressure; evaluated on any input data all settings give the defaults; nothing else in the brush changes."
  },
  {
   "property": "C36",
   "status": "partial",
   "theorems": [
    "C36_returns_iff_safe",
    "C36_applied_partial",
    "C36_aborts_refuted",
    "C36_never_returns_refuted",
    "C36_undefined_refuted",
    "C36_incomplete_refuted"
   ],
   "note": "The claim is false: well-formed documents abort or run into undefined behaviour. The exact set of documents for which loading returns is characterised for every reachable brush, and what the brush holds afterwards is proved. TRUE only means that one setting was applied completely; curves on inputs that the file does not name stay. The text parser (json-c) is not modelled."
  },
  {
   "property": "C37",
   "status": "partial",
   "theorems": [
    "C37_radius_partial",
    "C37_offset_partial",
    "C37_exact_partial",
    "C37_near_partial",
    "C37_infinite_refuted",
    "C37_infinite_undefined"
   ],
   "note": "The statement ranges over every dab an event makes the surface draw (relation drew, any surface). Bit-exact for every mathematical library, every input and every other setting: with anti-aliasing and pixel snapping off the radius is NaN or in [0.2,1000]; with the speed, random and snap offsets off the dab lies at the slow pen position plus offsets that are NaN or at most 3240. Exact real arithmetic: with anti-aliasing at most K and snapping at most 1 the radius is in [0.2, 1000+K/2+1/4]; and for any sequence of events in a box, with tracking noise and the offsets by speed and random off, every dab lies within 3240.5 pixels of the box whatever the other settings (C37_near_partial). The full claim is false: anti-aliasing 1e-8 makes the engine ask for a dab of infinite radius (C37_infinite_refuted), whose tile range the tiled surface converts to int with undefined behaviour (C37_infinite_undefined)."
  },
  {
   "property": "C38",
   "status": "partial",
   "theorems": [
    "C38_in_range",
    "C38_average_partial",
    "C38_transparent",
    "C38_opaque",
    "C38_every_mode",
    "C38_no_wrap",
    "C38_between_refuted",
    "C38_nan_refuted"
   ],
   "note": "Any surface history, refusal pattern, summing order, rand() and fastpow(). Classic sampling: all four results in [0,1], 32-bit sums never wrap, result equals the weighted average up to an explicit truncation and rounding error. Every mode: alpha in [0,1], transparent area gives alpha 0, opaque area alpha 1, colours in [0,1] or NaN. The literal between-min-and-max claim is false (refuted by a uniform canvas), and so is \"never NaN\" for paint = NaN."
  },
  {
   "property": "C39",
   "status": "proved",
   "theorems": [
    "C39_read_sees_everything",
    "C39_reading_leaves_no_trace"
   ],
   "note": "For tiles whose requests are granted; every kind of operation and tile content. The history is assumed to run to completion: a read can make a later draw_dab abort when the dirty list is full (see C03)."
  },
  {
   "property": "C40",
   "status": "partial",
   "theorems": [
    "C40_other_tiles_painted",
    "C40_failing_tile_partial",
    "C40_later_dab_not_flushed_refuted"
   ],
   "note": "First half proved; second half is false of the code when two or more dabs were waiting on the failing tile (refuted with a witness) and proved when at most one was."
  },
  {
   "property": "C41",
   "status": "partial",
   "theorems": [
    "C41_range",
    "C41_centre",
    "C41_rim",
    "C41_decreasing_up_to_one_unit",
    "C41_never_increases_refuted",
    "C41_exact_profile"
   ],
   "note": "Bit-exact range, centre and rim; monotone up to one unit of 2^-15 across the segment border (the exact claim is refuted with a witness) and exactly monotone inside a segment; the exact-arithmetic profile is monotone."
  },
  {
   "property": "C42",
   "status": "partial",
   "theorems": [
    "C42_exact_leak_partial",
    "C42_drained_queue_leaks_nothing",
    "C42_queued_dab_released_refuted"
   ],
   "note": "False for dabs still queued (payloads leak); exact leak characterised; list items and headers are released exactly once."
  },
  {
   "property": "C43",
   "status": "partial",
   "theorems": [
    "C43_returns_partial",
    "C43_idle_partial",
    "C43_refuted"
   ],
   "note": "Bit-exact, for any mixing and power functions and any order of summing the tiles: with the tiles readable and the queued dabs drawable, get_color returns for every finite radius up to 65536 in the classic mode and up to 9362 in the newer mode, within a million pixels of the origin (the only fact used of the C library is cos 0 = 1, sin 0 = 0). C43_idle_partial: without any proviso on queued dabs when none is queued. The full claim is false: radius 9362.3 makes the sampling interval 0 modulo 2^16 and the code divides by it (C43_refuted), for every surface, position and non-negative paint mode."
  },
  {
   "property": "C44",
   "status": "proved",
   "theorems": [
    "C44_composition_is_sequence",
    "C44_associative",
    "C44_unit",
    "C44_rotations_cancel",
    "C44_reflecting_twice",
    "C44_meaning"
   ],
   "note": "over the reals: the matrix operations compose as the transforms they denote, for all matrices and angles"
  },
  {
   "property": "C45",
   "status": "proved",
   "theorems": [
    "C45_factor",
    "C45_between",
    "C45_tracking",
    "C45_hull"
   ],
   "note": "exact real arithmetic, as the quantifier says: factor in [0,1] and monotone; each filtered state between its old value and the target in every step; tracked position between pen and event; over every event sequence (without tracking noise) pen and slow pen stay in the bounding box of the events."
  },
  {
   "property": "C46",
   "status": "proved",
   "theorems": [
    "C46_ends",
    "C46_between",
    "C46_gamut",
    "C46_no_history",
    "C46_history_refuted",
    "C46_round_trip"
   ],
   "note": "Exact real arithmetic, powf any function that is the power function on positive numbers. End points for a first colour with non-zero alpha (a transparent first colour has share 0 by the code). Also: result in gamut, alpha linear, spectral rendering within 1/5000 of the colour, independence of earlier mixes unless the mode is negative (refuted there: the static array shows through)."
  },
  {
   "property": "C47",
   "status": "proved",
   "theorems": [
    "C47_never_degenerates"
   ],
   "note": "Parity invariant through the whole seeding procedure, then for ever."
  },
  {
   "property": "C48",
   "status": "partial",
   "theorems": [
    "C48_pigment_valid_partial",
    "C48_faint_undefined",
    "C48_lock_alpha_refuted",
    "C48_surface_stays_valid"
   ],
   "note": "Bit-exact through the spectra, fastlog2, fastpow2 and back. Normal and eraser pigment painting: proved in full. Lock-alpha pigment painting: proved except for pixels of alpha 1 with a weight strictly between none and all, and there it is undefined (exact characterisation C48_faint_undefined: 0/0 is converted to an integer), so the full claim is false (C48_lock_alpha_refuted). C48_surface_stays_valid: all pixels valid through every history with any mixture of ordinary and pigment painting."
  },
  {
   "property": "C49",
   "status": "partial",
   "theorems": [
    "C49_session_completes_partial",
    "C49_with_symmetry_partial",
    "C49_without_symmetry_partial"
   ],
   "note": "Bit-exact, for any sin/cos within range, over every history, every backend refusal and failing transform allocations. Covers normal painting, erasing, lock-alpha and pigment (the mixing the code really does) under every symmetry, for dabs within 2^20 of the origin and radius at most 1010, with rectangles either allocated or the snowflake symmetry not used. C49_with_symmetry_partial asks only for the dabs of the caller to be in range (within 440001) and proves it of their copies, for any sin/cos near the unit circle. The condition on reads is needed: C03_never_aborts_refuted. Missing: colorize and posterize, larger dabs, and the narrow band of hardness in the gap condition inherited from C10."
  },
  {
   "property": "C50",
   "status": "partial",
   "theorems": [
    "C50_one_at_a_time_partial",
    "C50_separate_starts_partial",
    "C50_parallel_refuted",
    "C50_attached_refuted",
    "C50_sampling_refuted",
    "C50_references",
    "C50_transfer_full_refuted"
   ],
   "note": "GEGL itself is modelled by its documented interface (extent, stored pixels, conversion). Proved: requests one after the other (native buffers with reads, other formats with painting), and every interleaving of any number of threads as long as no two requests are started at the same time; reference counts over every sequence of set_buffer. The full claim is false: two requests started at the same time can store an old bounding box and hide a painted tile although the backend declares itself thread safe (C50_parallel_refuted); painting on a buffer that already has a picture shrinks its extent and hides the picture (C50_attached_refuted); reading from a buffer of another format writes the rounded pixels back (C50_sampling_refuted); set_buffer is annotated as taking over a reference but takes its own (C50_transfer_full_refuted)."
  },
  {
   "property": "C51",
   "status": "proved",
   "theorems": [
    "C51_pigment_accurate",
    "C51_same_colour",
    "C51_full_weight",
    "C51_no_weight",
    "C51_untouched_refuted"
   ],
   "note": "Bit-exact floats on the code side, real numbers with exp and ln on the specification side; an a-priori error analysis through the whole computation (bounds on fastlog2 and fastpow2 for every argument by interval arithmetic on their rational corrections, relative errors through ten bands, absolute ones through the matrix back). Range: every pixel with something in it on which the code is defined (C48 says exactly which lock-alpha pixels are not; an empty pixel goes through the ordinary mode). Consequences: same colour stays, full weight gives the brush colour, no weight leaves the pixel, each up to the stated error. The error is real and adds up: C51_untouched_refuted shows ten dabs of no weight at all shifting the blue of a pixel by 23 units, where ordinary painting leaves it exactly."
  },
  {
   "property": "C52",
   "status": "partial",
   "theorems": [
    "C52_program_safe_partial",
    "C52_default_brush"
   ],
   "note": "Bit exact, brush engine and tiled surface composed, from the constructors on; any events, calls in any order, settings in the stated ranges. C52_default_brush: every stroke with the default brush, any colour, radius e^-6 to e^6. Colour dynamics and every symmetry included (centre within 65536, at most four million lines; for the snowflake, transforms and rectangles allocated). Missing: smudging, directional offsets, slow tracking, colorize and posterize, picking colours while painting, positions between 65536 and 10^10. That an event needs finitely many dabs is C53."
  },
  {
   "property": "C53",
   "status": "partial",
   "theorems": [
    "C53_program_ends_partial",
    "C53_default_brush"
   ],
   "note": "Bit exact, for the programs of C52 (symmetry included) with bounded spacing and round dabs: each event takes at most a stated number of dabs, so no loop runs for ever. C53_default_brush: no such conditions for the default brush. The limits are real: C34 refutes the claim for brushes outside them. Missing: what C52 misses, elliptical dabs, spacings too dense for the size of the picture."
  },
  {
   "property": "C54",
   "status": "proved",
   "theorems": [
    "C54_ranges",
    "C54_hsv_round_trip",
    "C54_hsl_round_trip",
    "C54_exact_refuted",
    "C54_one_color",
    "C54_chosen_is_painted"
   ],
   "note": "Bit exact. The brush theorems are about every event sequence that returns (which ones do is C33 and C52), any C library, random source and surface. C54_exact_refuted records that the error is real: the float round trips are not the identity, and nearly grey colours do become grey in HSV."
  },
  {
   "property": "C55",
   "status": "proved",
   "theorems": [
    "C55_elsewhere",
    "C55_elsewhere_within",
    "C55_dabs",
    "C55_smudge_refuted"
   ],
   "note": "Exact real arithmetic, any mathematical library, random source and surface; positions below 10^8. Translation by whole pixels (snapping to pixels makes other displacements differ). The statement excludes grid dynamics, smudging, and slow tracking at the first event; that smudging differs at negative coordinates is proved bit exactly (C55_smudge_refuted)."
  },
  {
   "property": "C56",
   "status": "proved",
   "theorems": [
    "C56_hover",
    "C56_new",
    "C56_lifting",
    "C56_curve",
    "C56_default",
    "C56_events",
    "C56_surface",
    "C56_canvas"
   ],
   "note": "Bit exact, for any mathematical library with powf(1,y)=1, any random source and surface. Opacity from pressure means: at zero pressure opaque_multiply evaluates to zero and opaque to a finite number (C56_curve gives the usual way to have that, C56_default the default brush). An event can be held back only by tracking noise; then no state has changed."
  },
  {
   "property": "C57",
   "status": "proved",
   "theorems": [
    "C57_colour_only",
    "C57_dabs",
    "C57_reports",
    "C57_default_brush"
   ],
   "note": "Bit exact, for any mathematical library and random source, about runs that both return (which ones do is C33 and C52). C57_colour_only: any surface whose answers do not depend on colours; C57_dabs: the dabs a recording surface is asked for; C57_reports: brush and tiled surface together, the rectangles reported at the end of every operation; C57_default_brush: the same for the default brush in any two colours, where both runs are proved to return."
  },
  {
   "property": "C58",
   "status": "proved",
   "theorems": [
    "C58_picture_unseen",
    "C58_dabs",
    "C58_canvas",
    "C58_reports",
    "C58_default_brush",
    "C58_smudging_refuted"
   ],
   "note": "Bit exact, for any mathematical library and random source. C58_picture_unseen: any two surfaces that answer drawing requests alike; C58_dabs: the dabs a recording surface is asked for; C58_canvas and C58_reports: brush and tiled surface together, for runs that both return; C58_default_brush: the default brush, where both runs are proved to return. C58_smudging_refuted: with smudging the dabs do depend on the picture."
  }
 ]
}