# Formal model of libmypaint in Rocq — design

This file says what is modelled, how each property of `properties.jsonl` is
stated and proved, and what is trusted.  The code under study is the C source
in `/repo`; it is read as text only.

## 1. Method

* Every C function that is modelled becomes a total, computable Gallina
  function (real-number geometry excepted, see below) with a comment giving
  file and lines.
* Integers are `Z`.  Fixed-width types are handled explicitly: a model function
  either computes with the C conversions (`u16`, `u32`, `i16` wrap-around
  functions) or the place where a wrap would happen is proved unreachable.
* Assertion failures, out-of-bounds accesses, division by zero and undefined
  float-to-int conversions are explicit outcomes (`Abort`, `UB`), never
  silently totalised.
* Stateful code is a record plus step functions; histories are lists of calls;
  invariants are proved by induction over the history.
* Floating point.  Three levels are used and each definition says which:
  (a) *bit exact*: binary32/binary64 through Flocq (round to nearest even, no
  contraction, `FLT_EVAL_METHOD = 0`, one NaN);  (b) *exact integers*: the
  random generator only ever produces multiples of 2^-52 in [0,2), on which
  double addition is exact, so it is modelled over `Z`;  (c) *exact reals or
  rationals*: colour conversion and geometry, stated as exact-arithmetic claims.
* `malloc` results, thread schedules and tile-backend results are universally
  quantified (oracles, permutations, interleavings).

Specifications are in separate `*Spec` sections/files that use only lists, sets
of pixels, rationals and reals, not the helper functions of the model.
Theorems meant to be read are in `P_*.v` files; the long proofs are in the
other files.

## 2. Files (rocq/theories)

Model files (definitions with citations), proof files, and `P_*.v` files with
the theorems meant to be read, their cases and `Print Assumptions`.

| code in /repo | model | proofs | theorems |
|---|---|---|---|
| (C integers, outcomes, floats) | Base, F32, Arith | F32Proofs | |
| tilemap.c, operationqueue.c | Queue | QueueProofs | P_Queue (C01-C03) |
| fifo.c, memory of operationqueue.c | Fifo (explicit heap) | FifoProofs | P_Fifo (C42) |
| mypaint-tiled-surface.c: process_tile, end_atomic, get_color as users of the queue, worker threads | Plumb | PlumbProofs, KeepProofs | P_Plumb (C04, C05, C39, C40) |
| brushmodes.c | Blend | BlendProofs, BlendColorProofs | P_Blend (C06-C09) |
| mypaint-tiled-surface.c 227-493: dab mask | Mask | MaskProofs, OpaProofs, AaProofs, RrProofs, MaskFloatProofs, FarProofs, GapProofs, GapFloat | P_Mask (C10, C41) |
| mypaint-tiled-surface.c: process_op, draw_dab, begin/end_atomic | Dab | DabProofs, HistoryProofs, RoiProofs, DirtyProofs, SurfProofs | P_Dab (C05, C11), P_Dirty (C12), P_Surface (C06, C07) |
| mypaint-rectangle.c | Rect | | P_Rect (C13, C14) |
| mypaint-matrix.c, mypaint-symmetry.c | Symmetry | SymmetryProofs, PassProofs, BoxProofs | P_Matrix (C44), P_Symmetry (C15, C16), P_SymSafe (C17) |
| mypaint-fixed-tiled-surface.c | FixedSurface | | P_Fixed (C18) |
| rng-double.c | Rng | RngProofs | P_Rng (C19, C20, C47) |
| mypaint-mapping.c | Mapping | MappingFloat | P_Mapping (C21, C22) |
| helpers.c: angles, colour spaces | Color | ColorProofs, ColorHcyProofs; ColorRound (round trips in C floats) and ChosenProofs (the colour of a dab) | P_Color (C23-C26), P_Chosen (C54) |
| helpers.c: spectral mixing | Spectral | | P_Spectral (C46) |
| mypaint-brush.c, two runs compared | Brush | ShiftOffsets, ShiftProofs, ShiftEvents | P_Shift (C55) |
| mypaint-brush.c and mypaint-tiled-surface.c at zero pressure | Brush, Dab | HoverProofs | P_Hover (C56) |
| mypaint-brush.c and mypaint-tiled-surface.c: independence of the colour settings | Brush, Dab, Easel | RecolourProofs | P_Recolour, P_RecolourDefault (C57) |
| mypaint-brush.c and mypaint-tiled-surface.c: independence of the picture painted on | Brush, Dab, Easel | UnderProofs | P_Under, P_UnderDefault (C58) |
| mypaint-surface.c; brush and tiled surface together | Easel | EaselNum, EaselDab, ColorFloat (colours stay in range, bit exact), EaselStep, EaselProofs, EaselRun (the brush engine), SymReach, SymCopies (how far a symmetry carries a dab), EaselSurf (the surface), EaselProg, EaselDefaults; EndNum, EaselEnd, EaselLast (how many dabs an event takes) | P_Easel (C52), P_End (C53) |
| brushmodes.c: pigment painting; fastapprox | Paint | PaintProofs, PigmentLog, PigmentPow, PigmentMix, PigmentStore | P_Paint (C48), P_Pigment (C51) |
| whole tiled surface, totality | Dab, Paint | CompleteProofs, SessionProofs, SymReach, SymCopies | P_Complete, P_Reach (C49) |
| gegl/mypaint-gegl-surface.c | Gegl | GeglProofs | P_Gegl (C50) |
| mypaint-brush-settings.c, brushsettings.json; reference counts | Settings, Refcount | | P_Settings (C27, C28) |
| mypaint-brush.c: the engine | Brush | BrushProofs, BrushInst, BrushSettings, StepFacts, DabFrame, DabSeen, Deeds, AbortProofs, ReturnProofs, StrokeExact; BrushToy and RealToy are settings for the examples | P_Bucket (C29, C30), P_Reset (C30), P_BucketDab (C29, C30), P_Time (C31, C32), P_Abort (C33), P_Spacing, P_Endless (C34), P_Defaults (C35), P_Limits, P_Limits2 (C37), P_Filter (C45) |
| mypaint-brush.c: JSON loader | Json | | P_Json (C36) |
| get_color and the sampling loops of brushmodes.c | Sample, SampleSpec | SampleProofs, SampleProofs2, SampleProofs3, SampleReturn, SampleReturn2 | P_Sample (C38), P_SampleReturn (C43) |

## 3. Properties: what is modelled and how it is proved

Status is in `MANIFEST.json`, with the exact theorem names and what is missing.

| id | model | proof |
|---|---|---|
| C01 | queue as map of linked lists in a square array that is re-indexed on growth | refinement to `tile -> list op`, simulation over all histories |
| C02 | same | invariant "pending => listed" over protocol histories; NoDup of the deduplicated list |
| C03 | assert is `Abort`, int arithmetic of the tile map checked | refuted by concrete legal histories; proved for histories without re-dirtying after a pop (`_partial`); abort only when the list is full |
| C04 | workers as step machines on (queue, tiles) | commutation of steps on distinct tiles, all interleavings |
| C05 | surface with queue vs. plane of pixels | refinement by induction over calls; refuted for dabs whose tile-relative position rounds |
| C06, C07, C09 | integer blend functions with explicit u32/u16 wraps | nonlinear integer arithmetic, induction over dab sequences and surface histories |
| C08 | posterize, colorize, bit exact | refuted for validity (witnesses), conditional positive part |
| C10 | encoder writes to a bounded buffer, decoder loop with pointer; float opacity per pixel | induction over rows/runs; rounding analysis: along a row the computed distance has no hump above painted pixels, so rows have no holes |
| C11 | tile range, box and clip rectangle as floors of floats | bit-exact inequality |
| C12 | atomic operation history with the rectangle array | refuted for "last dab rejected" and "symmetry switched off"; proved otherwise |
| C13, C14 | rectangles over checked ints; index distribution in bit-exact floats | arithmetic; refuted above 2^24 boxes |
| C15, C44 | 3x3 matrices over R | trigonometric identities |
| C16, C17 | symmetry data state machine with allocation oracle | invariants over histories; refutations for failed box allocation and huge line counts |
| C18 | tile addresses over checked ints | disjointness and bounds; refutations for huge canvases |
| C19, C20, C47 | generator, bit-exact doubles, refined to Z mod 2^52 | invariants; parity argument for C47 |
| C21, C22 | control points as lists, any arithmetic | induction over edits; float error bound by rounding analysis |
| C23-C26 | exact reals over the code shared with the bit-exact reading | case analysis and field arithmetic; refutations where the code is wrong |
| C27 | tables transcribed from brushsettings.json | computation lifted to all strings by induction |
| C28 | counter with destroy trace | induction |
| C29, C30 | flat float array of buckets inside the brush model | refuted (missing stride, last bucket not reset), positive facts kept; other buckets untouched by a dab and by any list of events, by a frame argument through the whole engine |
| C31, C32 | stroke_to, exact reals, with a record of what was done with each event's time (Deeds) | induction over call histories; refuted in floats |
| C33 | stroke_to, bit exact, library and surface as oracles | exact abort condition; for plain brushes all events return |
| C34 | dab loop with loop counter, exact reals and bit exact | accounting invariant; a float state that the loop maps to itself |
| C35, C36 | settings as histories of edits; JSON value type | equality of final state; exact set of safe documents |
| C37 | relation "the surface was asked for this dab", bit exact and over R | clamps through the whole event; refuted for tiny anti-aliasing |
| C38 | sums over mask entries | weighted average bounds, no wrap, error bound |
| C39, C40 | surface model with backend failures | refinement / refutation |
| C41 | two-segment profile, bit exact | rounding analysis per segment and at the joint |
| C42 | allocation ledger | refuted for payloads, proved after draining |
| C43 | 16-bit interval conversion, mask of the sampled area | refuted with a concrete radius; returns below it |
| C45 | exp_decay over R | exponential inequality |
| C46 | weighted geometric mean over R | power inequalities |
| C48 | spectra and bit-trick powers, bit exact | interval arithmetic with rounding through log, exp and the conversions; exact set of undefined inputs |
| C49 | every history of calls on the tiled surface | each step returns, from an invariant: queue map a power of two times ten, room in the dirty list, boxes moderate, tiles valid, pending operations drawable |
| C50 | GEGL backend: extent box and buffer as shared state, jobs advancing one shared access at a time | invariant over turns; refuted by a concrete schedule and concrete buffers |
| C51 | the same code against real numbers with exp and ln | error analysis: interval bounds for the bit-trick log and power, relative errors through the bands, absolute through the matrix |
| C52 | brush engine and tiled surface composed, a program of calls on both | ranges for every float from event to dab; the surface invariant of C49 as the invariant of the drawing callback |
| C53 | the same programs; the dab loop of an event | a real-valued measure of what is left (way and time, bounding the dabs to go) that falls by a fifth per dab despite rounding, until less than one dab is left; bounds for the float count on both sides |
| C54 | the four colour conversions in bit-exact floats; the brush engine over any surface | rounding errors of every step against the exact colour circle; hue, saturation and value of the float result bound the distance of the way back, continuity of the circle across sector borders; for the brush: inversion of a returning event down to each draw_dab call |
| C55 | the brush engine in exact arithmetic, run twice | a relation between two brushes (positions moved, grid coordinates free, everything else equal), kept by each of the 60 assignments of a simulation step, by every dab, event and reset; established by the first event after a reset |
| C56 | the brush engine and the tiled surface in C floats | an invariant over all calls: the pressure of the brush is exactly zero (or in [0,4] before lifting) and less than one dab is left over, so the fraction of a step is finite and at most 1025/512; the pressure step is then exactly zero, the last step of an event subtracts the pressure from itself exactly; zero is carried through the curve, the product, powf and the radius correction to the dab's opacity, and draw_dab_internal refuses such a dab |
| C57 | the brush engine in C floats on any surface; brush and tiled surface together | a relation between two brushes (equal but for the colour settings) kept by every function of the engine and every call; the dabs asked for agree but for their colours; for the tiled surface, dabs of equal shape update the rectangles equally |
| C58 | the brush engine in C floats on any surface; brush and tiled surface together | a relation between two surfaces kept by every function of the engine and every call, as long as the brush does not smudge (then no colour is read); for the tiled surface the relation is equality of everything but the tiles; a tile is written from itself and the queue alone; the default brush by C53 (both runs return) and C35 (it does not smudge); smudging refuted by a computed pair of runs |

## 4. Trusted base

1. The kernel of Coq 8.16.1 (the build also passes `coqchk`).
2. Axioms of the standard library, as printed by the `Print Assumptions` at the
   end of each `P_*.v` file.  Except for C51, no theorem depends on anything but these four:
   `ClassicalDedekindReals.sig_not_dec`, `ClassicalDedekindReals.sig_forall_dec`,
   `FunctionalExtensionality.functional_extensionality_dep` and
   `Classical_Prop.classic`; all come in through the real numbers (Flocq uses
   them for the bit-exact statements too).  The accuracy theorems of C51 use the
   `interval` tactic and so in addition the standard library's axioms about
   machine integers and floats (`Uint63.*_spec`, `PrimInt63.*`, `FloatAxioms.*`,
   `PrimFloat.*`), from Coq.Numbers.Cyclic.Int63 and Coq.Floats.  The theorems of P_Queue, P_Settings, P_Fifo
   P_Plumb and P_Gegl are closed under the global context.
3. The reading of C documented in the comments of each definition: C11 with
   32-bit int, 16-bit uint16_t, 64-bit pointers, IEEE floats with
   `FLT_EVAL_METHOD = 0`, round to nearest even, no contraction, NaN payloads and
   signalling not observed, `NDEBUG` not defined (asserts abort).
4. What is quantified instead of modelled: `sin`, `cos`, `expf`, `logf`, `powf`,
   `atan2`, `hypot` and friends (records of functions; facts about them are
   explicit hypotheses, like `turns_ok` in C49 and C52, `easel_maths` in C52 and `hypot_fair` in C53), the result of `malloc` where an allocation failure
   matters (queue, symmetry, rectangles), thread schedules, the tile backend's
   answers, the random sequence in statements about brushes, `rand()` and the
   fast power approximation in colour sampling.

### Modelled

tilemap.c, fifo.c, operationqueue.c, brushmodes.c (all modes and both samplers;
the spectral mix is a parameter in most theorems about tiles; Paint.v
is the mix of the code, bit exact, with fastapprox/fastlog.h, fastexp.h and
fastpow.h), mypaint-tiled-surface.c (everything but the tile-request
bookkeeping of `mypaint_tiled_surface_tile_request_*`, which only forwards to the
backend), mypaint-rectangle.c, mypaint-matrix.c, mypaint-symmetry.c,
mypaint-fixed-tiled-surface.c, rng-double.c, mypaint-mapping.c, helpers.c
(conversions, angles, spectral mixing), mypaint-brush-settings.c with the tables
of brushsettings.json, mypaint-brush.c (settings, states, step, stroke_to,
buckets, defaults, JSON loading from the parsed tree), reference counts,
gegl/mypaint-gegl-surface.c (against GEGL's documented interface: a buffer is an
extent and stored pixels, blank outside the extent; save_png left out).

### Not modelled

json-c's text parser; gettext and GObject introspection glue (glib/); GEGL itself;
`mypaint_brush_set_print_inputs`
output; `malloc` failure in places other than those above; the C11 memory model
below "different tiles are different memory"; the Python and XML tools; the
`HEAVY_DEBUG` code.  Each definition says where it simplifies.

## 5. What was found in the code

Each is a theorem named `..._refuted` (or `_undefined`) with a concrete witness.

* The dirty-tile list can fill up within one atomic operation when colours are
  read in between; the assertion fails (C03).  Tiles at index 23170 and beyond
  overflow int (C03).
* The tile grid shows by one unit where the tile-relative position rounds (C05).
* Colorize divides by zero or leaves invalid pixels on white; posterize exceeds
  alpha on translucent pixels (C08).
* `end_atomic` reports nothing when the last dab was rejected, and stale or too
  few rectangles after symmetry was switched off (C12).
* The rectangle index goes through float: wrong above 2^24 boxes (C14).
* A failed box allocation leaves the symmetry state inconsistent (C16, C17).
* Canvases of 2^29 pixels and of width 16777281 (C18).
* Adding control points lets x values get out of order (C21).
* Luma weights add up to 1.0036 (digits of a weight swapped) (C25); the float
  modulo helper can return its modulus (C26).
* Smudge buckets are addressed without stride by the API (C29); a reset leaves
  one bucket (C30).
* stroke_to asks for a split although nothing was painted (C31); short events
  vanish in the float time (C32); positions between 10^8 and 10^10 abort (C33);
  unset control points are read (C33); the dab loop can run for ever (C34).
* Well-formed brush files abort or run into undefined behaviour (C36).
* Anti-aliasing 1e-8 gives a dab of infinite radius (C37).
* Reading a colour: not between the minimum and maximum of the area, NaN for
  paint = NaN (C38); radius 9362.3 divides by zero (C43).
* A tile request that fails keeps later dabs of that tile from being flushed (C40).
* Opacity can rise by one unit outwards where the segments meet (C41).
* Queued dabs leak when the queue is freed (C42).
* mix_colors shows an earlier result for negative modes (C46).
* Pigment painting with locked alpha over a pixel of alpha 1 divides zero by zero
  and converts the result to an integer (C48).
* Pigment dabs of no weight still push colours through the spectrum and back: they
  drift, e.g. by 23 units in ten dabs (C51).
* The GEGL backend updates its bounding box without a lock while it declares its
  requests thread safe: painted tiles can vanish from the picture (C50).  Painting
  on an attached buffer hides its old picture; reading from a buffer of another
  format rewrites it; set_buffer does not take over the reference its annotation
  says it takes (C50).
* Smudging picks the pixel next to the right one at negative coordinates, because
  ROUND cuts off towards zero (C55).
