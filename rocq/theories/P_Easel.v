(** Property C52: a painting program - one brush and one tiled surface, from the
    library's constructors on - never aborts and never runs into undefined
    behaviour, whatever the tablet sends. *)
From Verif Require Import Base F32 F32Proofs Arith Color Mapping Settings Spectral Brush BrushProofs BrushInst BrushToy
  Queue Blend Rect Symmetry Mask Plumb Paint EaselNum EaselDab EaselProofs EaselRun SymReach SymCopies Easel EaselSurf EaselProg EaselDefaults.
From Verif Require BoxProofs Dab P_Abort P_Limits P_Rect P_Mask P_Blend P_Dab P_Complete HistoryProofs DabProofs P_Mapping.
From Coq Require Import Reals Lra.
From Flocq Require Import Core.Core IEEE754.BinarySingleNaN.
Local Open Scope Z_scope.

(** the random generator gives numbers from 0 to 1 *)
Definition fair_numbers {rng : Type} (next : rng -> outcome (f64 * rng)) : Prop :=
  forall g, exists r g', next g = Ok (r, g') /\ zd 0 r 1.
(** the settings of a new brush *)
Definition fresh_settings : settings := repeat (mapping_new (sng mix64) INPUTS_COUNT) SETTINGS_COUNT.

Section C52.
  Variables (trig : Mask.trig_oracle) (G : trigops num32) (L : mathlib mix64).
  Variables (rng : Type) (next : rng -> outcome (f64 * rng)).
  Variable get : Dab.tsurf -> f32 -> f32 -> f32 -> f32 -> outcome (rgba mix64 * Dab.tsurf).
  Notation E := (easel G rng next get).

  (** Every program that is orderly and keeps its settings in range (EaselProg.v):
      no action aborts or is undefined.  The events may come at any times and with
      any zoom and barrel rotation, even not a number, and with positions that are
      garbage; the backend may refuse any tile and any allocation; calls may come
      in any order: strokes outside begin/end_atomic, nested begins, resets in the
      middle of a stroke, a new symmetry within an operation.  [turns_ok G]
      (SymReach.v; see [trig32_turns]): sin and cos used by the symmetry lie on the
      unit circle up to 2^-16.
      Missing (hence partial): smudging, directional offsets,
      slow tracking, colorize and posterize, picking colours and
      painting within one operation, positions between 65536 and 10^10, and that
      the number of dabs of an event is finite ([fuel]; the answer [None] means
      that more than [fuel] dabs were needed). *)
  Theorem C52_program_safe_partial : forall ok junk pix0 ts0 buckets g values bucket_memory lo hi (b : brush E) mixed_ fuel program,
    trig_ok trig -> turns_ok G -> easel_maths L -> fair_numbers next ->
    Dab.tiled_surface_init G ok junk pix0 = Ok ts0 -> P_Dab.canvas pix0 -> (forall X Y, P_Blend.valid (HistoryProofs.pixel_of pix0 X Y)) ->
    brush_new L buckets g values bucket_memory lo hi = Ok b -> buckets <= 16777217 ->
    orderly false false false program -> room_for_flakes program -> in_tune fresh_settings program ->
    exists r, run trig G L rng next get fuel (b, mkWorld (E := E) ts0 mixed_) program = Ok r.
  Proof.
    intros ok junk pix0 ts0 buckets g jv jb lo hi b mx fuel program T TK EM FR I0 C0 V0 Nb Hb O Rm Tn. destruct (room_fits _ Rm) as (all & Dec & Ft).
    destruct (new_idle L (E := E) buckets g jv jb lo hi b Nb) as (Ib & Sb); [intros; apply index_ok_64; lia|].
    apply (run_ok trig G L rng next get all Dec T TK EM FR ts0) with (begun := false) (painted := false) (picked := false); auto.
    - exact (holds_init all trig G ts0 ok junk pix0 I0 C0 V0).
    - rewrite Sb. exact Tn.
  Qed.

  (** In particular: the default brush, with any colour and any radius from e^-6 to
      e^6, paints every sequence of strokes under any symmetry. *)
  Definition colour_and_size (h s v radius : f32) : list action :=
    [LoadDefaults; SetBase (Z.of_nat SET_COLOR_H) h; SetBase (Z.of_nat SET_COLOR_S) s; SetBase (Z.of_nat SET_COLOR_V) v;
     SetBase (Z.of_nat SET_RADIUS_LOGARITHMIC) radius].
  Definition stroke (x : list (event mix64) * (tile -> bool)) : list action := Begin true true :: map Pen (fst x) ++ [End (snd x) (Some ([rect0], 1))].

  Lemma in_tune_cons : forall ms a l ms', match a with Pen _ => tuned ms | _ => True end -> settings_after ms a = Ok ms' -> in_tune ms' l -> in_tune ms (a :: l).
  Proof. intros ms a l ms' A B C. split; [exact A|]. exists ms'. split; [exact B|exact C]. Qed.
  Lemma strokes_orderly : forall l begun, (forall evs can e, In (evs, can) l -> In e evs -> event_ok e) -> orderly begun false false (concat (map stroke l)).
  Proof.
    induction l as [|(evs, can) l IH]; intros begun A; cbn [map concat]; [exact Logic.I|]. unfold stroke at 1. cbn [fst snd app orderly].
    assert (forall e, In e evs -> event_ok e) as Ae by (intros e I; apply (A evs can e); [left; reflexivity|exact I]). specialize (IH true).
    assert (orderly true false false (concat (map stroke l))) as IH' by (apply IH; intros evs' can' e H1 H2; apply (A evs' can' e); [right; exact H1|exact H2]). clear IH A.
    assert (forall evs p, (forall e, In e evs -> event_ok e) -> orderly true p false ((map Pen evs ++ [End can (Some ([rect0], 1))]) ++ concat (map stroke l))) as K; [|apply K; exact Ae].
    clear evs Ae. induction evs as [|e evs IHe]; intros p Ae; cbn [map app orderly].
    - split; [split; [reflexivity|cbn; lia]|exact IH'].
    - split; [apply Ae; left; reflexivity|]. split; [reflexivity|]. apply IHe. intros e' I. apply Ae. right. exact I.
  Qed.
  Lemma strokes_found : forall l, Forall rects_found (concat (map stroke l)).
  Proof.
    induction l as [|(evs, can) l IH]; cbn [map concat]; [constructor|]. apply Forall_app. split; [|exact IH]. unfold stroke. constructor; [reflexivity|]. apply Forall_app. cbn [fst].
    split; [|constructor; [exact Logic.I|constructor]]. apply Forall_forall. intros a H. apply in_map_iff in H. destruct H as (e & <- & _). exact Logic.I.
  Qed.
  Lemma strokes_in_tune : forall ms l, tuned ms -> in_tune ms (concat (map stroke l)).
  Proof.
    intros ms l T. induction l as [|(evs, can) l IH]; cbn [map concat]; [exact Logic.I|]. unfold stroke at 1. cbn [fst snd app in_tune settings_after].
    split; [exact Logic.I|]. exists ms. split; [reflexivity|]. induction evs as [|e evs IHe]; cbn [map app in_tune settings_after].
    - split; [exact Logic.I|]. exists ms. split; [reflexivity|exact IH].
    - split; [exact T|]. exists ms. split; [reflexivity|exact IHe].
  Qed.

  Theorem C52_default_brush : forall ok junk pix0 ts0 buckets g values bucket_memory lo hi (b : brush E) mixed_ fuel h s v radius active cx cy angle ty lines strokes,
    trig_ok trig -> turns_ok G -> easel_maths L -> fair_numbers next ->
    Dab.tiled_surface_init G ok junk pix0 = Ok ts0 -> P_Dab.canvas pix0 -> (forall X Y, P_Blend.valid (HistoryProofs.pixel_of pix0 X Y)) ->
    brush_new L buckets g values bucket_memory lo hi = Ok b -> buckets <= 16777217 ->
    in_range (-1000000) 1000000 h -> any_number s -> any_number v -> in_range (-6) 6 radius ->
    in_range (-65536) 65536 cx -> in_range (-65536) 65536 cy -> in_range (-1000000) 1000000 angle -> lines <= 4000000 ->
    (forall events can e, In (events, can) strokes -> In e events -> event_ok e) ->
    exists r, run trig G L rng next get fuel (b, mkWorld (E := E) ts0 mixed_) (colour_and_size h s v radius ++ SetSymmetry active cx cy angle ty lines :: concat (map stroke strokes)) = Ok r.
  Proof.
    intros ok junk pix0 ts0 buckets g jv jb lo hi b mx fuel h s v radius active cx cy angle ty lines strokes T TK EM FR I0 C0 V0 Nb Hb Hh Hs Hv Hr Sx Sy Sa Sl A.
    eapply C52_program_safe_partial; eauto.
    - unfold colour_and_size. cbn [app orderly]. split; [exact (conj Sx (conj Sy (conj Sa Sl)))|]. apply strokes_orderly. exact A.
    - right. unfold colour_and_size. cbn [app]. repeat (constructor; [exact Logic.I|]). apply strokes_found.
    - destruct (defaults_tuned fresh_settings fresh_ok) as (ms & Ed & Tm & Ln & Us & _).
      assert (forall ms i, length ms = SETTINGS_COUNT -> (i < SETTINGS_COUNT)%nat -> exists m : mapping (sng mix64), nth_error ms i = Some m) as Get.
      { intros ms' i L1 L2. destruct (nth_error ms' i) as [m|] eqn:N; [eauto|]. apply nth_error_None in N. lia. }
      (* a change of one base value *)
      assert (forall ms i (x : f32) l, tuned ms -> length ms = SETTINGS_COUNT -> (forall k m, nth_error ms k = Some m -> k <> SET_OPAQUE_MULTIPLY -> mp_used m = 0) ->
        (i < SETTINGS_COUNT)%nat -> i <> SET_OPAQUE_MULTIPLY -> i <> SET_LOCK_ALPHA -> i <> SET_PAINT_MODE ->
        (forall P, In (i, P) ranges -> P x) -> (forall P, In (i, P) base_ranges -> P x) ->
        (forall ms', tuned ms' -> length ms' = SETTINGS_COUNT -> (forall k m, nth_error ms' k = Some m -> k <> SET_OPAQUE_MULTIPLY -> mp_used m = 0) -> in_tune ms' l) ->
        in_tune ms (SetBase (Z.of_nat i) x :: l)) as Step.
      { intros ms' i x l Tm' Ln' Us' Hi N1 N2 N3 R B K. destruct (Get ms' i Ln' Hi) as (m & Nm).
        destruct (base_tuned ms' i m x Tm' Ln' Hi Nm (Us' i m Nm N1) N2 N3 R B) as (ms2 & Ee & T2 & L2 & U2).
        apply (in_tune_cons _ _ _ ms2); [exact Logic.I|exact Ee|]. apply K; auto.
        intros k m' Nk Nk'. destruct (U2 k m' Nk) as (m0 & N0 & -> & _). eauto. }
      unfold colour_and_size. cbn [app]. apply (in_tune_cons _ _ _ ms); [exact Logic.I|exact Ed|].
      apply Step; [assumption|assumption|assumption|vm_compute; lia|vm_compute; discriminate|vm_compute; discriminate|vm_compute; discriminate| | |].
      { intros P I. cbn in I. repeat (destruct I as [I|I]; [exfalso; apply (f_equal fst) in I; vm_compute in I; discriminate I|]). destruct I. }
      { intros P I. cbn in I. repeat (destruct I as [I|I]; [try (exfalso; apply (f_equal fst) in I; vm_compute in I; discriminate I); try (apply (f_equal snd) in I; cbn [snd] in I; subst P; assumption)|]). destruct I. }
      intros ms1 T1 L1 U1. apply Step; [assumption|assumption|assumption|vm_compute; lia|vm_compute; discriminate|vm_compute; discriminate|vm_compute; discriminate| | |].
      { intros P I. cbn in I. repeat (destruct I as [I|I]; [exfalso; apply (f_equal fst) in I; vm_compute in I; discriminate I|]). destruct I. }
      { intros P I. cbn in I. repeat (destruct I as [I|I]; [try (exfalso; apply (f_equal fst) in I; vm_compute in I; discriminate I); try (apply (f_equal snd) in I; cbn [snd] in I; subst P; assumption)|]). destruct I. }
      intros ms2 T2 L2 U2. apply Step; [assumption|assumption|assumption|vm_compute; lia|vm_compute; discriminate|vm_compute; discriminate|vm_compute; discriminate| | |].
      { intros P I. cbn in I. repeat (destruct I as [I|I]; [exfalso; apply (f_equal fst) in I; vm_compute in I; discriminate I|]). destruct I. }
      { intros P I. cbn in I. repeat (destruct I as [I|I]; [try (exfalso; apply (f_equal fst) in I; vm_compute in I; discriminate I); try (apply (f_equal snd) in I; cbn [snd] in I; subst P; assumption)|]). destruct I. }
      intros ms3 T3 L3 U3. apply Step; [assumption|assumption|assumption|vm_compute; lia|vm_compute; discriminate|vm_compute; discriminate|vm_compute; discriminate| | |].
      { intros P I. cbn in I. repeat (destruct I as [I|I]; [try (exfalso; apply (f_equal fst) in I; vm_compute in I; discriminate I);
          try (apply (f_equal snd) in I; cbn [snd] in I; subst P; eapply zf_weak; [exact Hr|lia|lia])|]). destruct I. }
      { intros P I. cbn in I. repeat (destruct I as [I|I]; [try (exfalso; apply (f_equal fst) in I; vm_compute in I; discriminate I); try (apply (f_equal snd) in I; cbn [snd] in I; subst P; assumption)|]). destruct I. }
      intros ms4 T4 _ _. apply (in_tune_cons _ _ _ ms4); [exact Logic.I|reflexivity|]. apply strokes_in_tune. exact T4.
  Qed.
End C52.

(** *** The hypotheses can be met *)
Lemma froundf_near : forall x : f32, fin x -> (Rabs (b2r x) <= 1000000)%R -> fin (froundf x) /\ (Rabs (b2r (froundf x) - b2r x) <= / 2)%R.
Proof.
  assert (forall x : f32, fin x -> (0 <= b2r x)%R -> fin (froundf x) /\ (Rabs (b2r (froundf x) - b2r x) <= / 2)%R) as Pos.
  { intros x F H. destruct (BoxProofs.froundf_floor x F H) as (Fr & Vr). split; [exact Fr|]. rewrite Vr.
    pose proof (Zfloor_lb (b2r x + / 2)). pose proof (Zfloor_ub (b2r x + / 2)). apply Rabs_le. lra. }
  intros x F H. destruct (Rle_dec 0 (b2r x)) as [P|N]; [apply Pos; auto|]. apply Rnot_le_lt in N.
  destruct x as [s|s| |s m e He]; try discriminate F; [cbn in N; lra|].
  assert (s = true) as ->.
  { destruct s; auto. exfalso. assert (0 < b2r (B754_finite false m e He : f32))%R; [|lra]. cbn [B2R cond_Zopp]. apply F2R_gt_0. reflexivity. }
  set (y := B754_finite false m e He : f32). assert (b2r (B754_finite true m e He : f32) = - b2r y)%R as Vy.
  { unfold y. cbn [B2R cond_Zopp]. change (Z.neg m) with (- Z.pos m). rewrite F2R_Zopp. reflexivity. }
  destruct (Pos y) as (Fy & Hy); [reflexivity|lra|]. rewrite Vy in *. unfold y in Fy, Hy. cbn [froundf] in *. fold y in Hy. destruct (Z.leb_spec 0 e).
  - split; [reflexivity|]. rewrite Vy. replace (- b2r y - - b2r y)%R with 0%R by ring. rewrite Rabs_R0. lra.
  - set (q := (2 * Z.pos m + 2 ^ (- e)) / 2 ^ (1 - e)) in *. assert (0 <= q <= 16777216) as Hq.
    { assert (0 < 2 ^ (1 - e)) by (apply Z.pow_pos_nonneg; lia). assert (0 < 2 ^ (- e)) by (apply Z.pow_pos_nonneg; lia).
      assert (Zpos m < 16777216).
      { assert (Zpos m < 2 ^ 24); [|auto]. pose proof (proj1 (andb_prop _ _ He)) as Hb. unfold SpecFloat.canonical_mantissa in Hb.
        apply Zeq_bool_eq in Hb. unfold SpecFloat.fexp, SpecFloat.emin in Hb. rewrite Digits.Zpos_digits2_pos in Hb.
        change (Zpos m) with (Z.abs (Zpos m)). apply (Digits.Zpower_gt_Zdigits radix2 24). lia. }
      assert (2 ^ (1 - e) = 2 * 2 ^ (- e)) as Ep by (rewrite <- Z.pow_succ_r by lia; f_equal; lia).
      split; [apply Z.div_pos; lia|]. unfold q. rewrite Ep. assert (2 <= 2 ^ (- e)) by (change 2 with (2 ^ 1) at 1; apply Z.pow_le_mono_r; lia).
      assert ((2 * Zpos m + 2 ^ (- e)) / (2 * 2 ^ (- e)) < 16777217); [|lia]. apply Z.div_lt_upper_bound; nia. }
    destruct (f_of_Z_exact q) as (Vq & _); [lia|]. destruct (f_of_Z_exact (- q)) as (Vm & Fm); [lia|]. split; [exact Fm|].
    rewrite Vm, opp_IZR. rewrite Vq in Hy. replace (- IZR q - - b2r y)%R with (- (IZR q - b2r y))%R by ring. rewrite Rabs_Ropp. exact Hy.
Qed.
(** a stand-in for the C library, with exp always 1 and pow its first argument *)
Lemma toy_maths : easel_maths toy_lib.
Proof.
  destruct f1_val as (V1 & F1). constructor.
  - exact P_Abort.toy_library.
  - reflexivity.
  - reflexivity.
  - intros x n _ _ _. change (expf_ toy_lib x) with f1. split; [exact F1|]. change (@b2r 24 128 f1) with (b2r f1). rewrite V1. split; [lra|]. apply pow_R1_Rle. lra.
  - intros x _. reflexivity.
  - intros x y Fx _ H _. exact (conj Fx H).
  - exact froundf_near.
Qed.
Lemma flat_trig : trig_ok P_Mask.flat.
Proof.
  intros a _. cbn. destruct f1_val as (V1 & F1). destruct f0_val as (V0 & F0). unfold P_Mask.between, P_Mask.value. rewrite V1, V0.
  split; [split; [exact F1|lra]|]. split; [split; [exact F0|lra]|]. rewrite Rabs_pos_eq; lra.
Qed.
Lemma flat_turns : turns_ok P_Dab.no_turn.
Proof.
  apply trig32_turns. intros a _. destruct f1_val as (V1 & F1). destruct f0_val as (V0 & F0). unfold turn. rewrite V1, V0.
  split; [exact F1|]. split; [exact F0|]. split; [lra|]. split; [lra|]. rewrite Rabs_pos_eq; lra.
Qed.
(** pen events at whole positions of a tablet are fine, and so are positions that
    are not numbers *)
Lemma pen_ok : forall x y p ms, Z.abs x <= 65536 -> Z.abs y <= 65536 -> fconst_test 0 1 (flit p 100) = true -> event_ok (pen x y p ms).
Proof.
  intros x y p ms Hx Hy Hp. split; [reflexivity|]. split; [reflexivity|]. left. unfold sensible, pen. cbn [ev_x ev_y ev_pressure ev_viewrotation].
  destruct (zf_Z x) as ((Fx & _) & Vx); [lia|]. destruct (zf_Z y) as ((Fy & _) & Vy); [lia|].
  destruct (fconst 0 1 (flit p 100)) as (Fp & Bp); [lia|lia|exact Hp|].
  split; [split; [exact Fx|rewrite Vx; split; apply IZR_le; lia]|]. split; [split; [exact Fy|rewrite Vy; split; apply IZR_le; lia]|].
  split; [split; [exact Fp|apply Bp]|]. apply fconst; [lia|lia|vm_compute; reflexivity].
Qed.
Lemma nan_ok : forall y p ms, event_ok (mkEvent (M := mix64) B754_nan (f_of_Z y) (flit p 100) f0 f0 (dlit ms 1000) B754_nan f0 f0 false).
Proof. intros y p ms. split; [reflexivity|]. split; [reflexivity|]. right. intros (F & _). discriminate F. Qed.

(** a red brush, any strokes on a tablet, every stroke drawn eight times around (100, 50) *)
Example C52_case : forall (points : list (list (Z * Z * Z))) ok junk ts0 b fuel,
  (forall s x y t, In s points -> In (x, y, t) s -> Z.abs x <= 65536 /\ Z.abs y <= 65536) ->
  Dab.tiled_surface_init P_Dab.no_turn ok junk P_Dab.blank = Ok ts0 ->
  brush_new (E := easel P_Dab.no_turn unit (fun g => Ok (dlit 1 2, g)) (fun _ _ _ _ _ => UB)) toy_lib 256 tt [] [] 0 0 = Ok b ->
  exists r, run P_Mask.flat P_Dab.no_turn toy_lib unit (fun g => Ok (dlit 1 2, g)) (fun _ _ _ _ _ => UB) fuel
    (b, mkWorld (E := easel P_Dab.no_turn unit (fun g => Ok (dlit 1 2, g)) (fun _ _ _ _ _ => UB)) ts0 ((f0, f0, f0, f0) : rgba mix64))
    (colour_and_size f0 f1 f1 (f_of_Z 3) ++ SetSymmetry true (f_of_Z 100) (f_of_Z 50) f0 Rotational 8 :: concat (map stroke (map (fun s => (map (fun '(x, y, t) => pen x y 50 t) s, fun _ => true)) points))) = Ok r.
Proof.
  intros points ok junk ts0 b fuel A I0 Nb. destruct f0_val as (V0 & F0). destruct f1_val as (V1 & F1).
  eapply (C52_default_brush P_Mask.flat P_Dab.no_turn toy_lib unit); [exact flat_trig|exact flat_turns|exact toy_maths| |exact I0|exact P_Dab.blank_canvas| |exact Nb| | | | | | | | | |].
  - intros g. exists (dlit 1 2), g. split; [reflexivity|]. apply dconst; [lia|lia|vm_compute; reflexivity].
  - intros X Y. rewrite P_Complete.blank_pixels. unfold P_Blend.valid, P_Blend.full; cbn. lia.
  - lia.
  - apply fconst; [lia|lia|vm_compute; reflexivity].
  - exact F1.
  - exact F1.
  - apply fconst; [lia|lia|vm_compute; reflexivity].
  - apply fconst; [lia|lia|vm_compute; reflexivity].
  - apply fconst; [lia|lia|vm_compute; reflexivity].
  - apply fconst; [lia|lia|vm_compute; reflexivity].
  - lia.
  - intros evs can e I Ie. apply in_map_iff in I. destruct I as (s & Es & Is). injection Es as <- _. apply in_map_iff in Ie. destruct Ie as (((x, y), t) & <- & It).
    destruct (A s x y t Is It) as (Hx & Hy). apply pen_ok; [exact Hx|exact Hy|vm_compute; reflexivity].
Qed.
Print Assumptions C52_program_safe_partial.
Print Assumptions C52_default_brush.
