(** Property C55: a stroke painted elsewhere is the same stroke.  The brush engine
    in exact arithmetic, for every mathematical library, random generator and
    surface. *)
From Verif Require Import Base F32 F32Proofs Arith Color Mapping Settings Spectral Brush BrushProofs BrushInst BrushToy ReturnProofs P_Reset ShiftProofs ShiftEvents.
From Coq Require Import Reals Lra.
From Flocq Require Import Core.Core IEEE754.BinarySingleNaN.
From Verif Require Import RealToy P_Spacing.
Local Open Scope Z_scope.

(** *** Words *)
(** The answers to a list of events, the brush and the world afterwards. *)
Fixpoint play {M : mixed} (L : mathlib M) {E : env M} (n : nat) (es : list (event M)) (b : brush E) (w : world E)
  : outcome (option (list bool * brush E * world E)) :=
  match es with
  | [] => Ok (Some ([], b, w))
  | e :: es =>
      let* r := stroke_to L n b w e in
      match r with
      | None => Ok None
      | Some (a, b, w) => let* r := play L n es b w in Ok (option_map (fun x => let '(l, b, w) := x in (a :: l, b, w)) r)
      end
  end.

(** An event, a dab moved by [a] pixels to the right and [c] pixels down. *)
Definition event_moved (a c : Z) (e : event mixR) : event mixR :=
  mkEvent ((ev_x e + IZR a)%R : sng mixR) ((ev_y e + IZR c)%R : sng mixR) (ev_pressure e) (ev_xtilt e) (ev_ytilt e) (ev_dtime e) (ev_viewzoom e) (ev_viewrotation e) (ev_barrel e) (ev_linear e).
Definition dab_moved (a c : Z) (d : dab mixR) : dab mixR :=
  mkDab ((dab_x d + IZR a)%R : sng mixR) ((dab_y d + IZR c)%R : sng mixR) (dab_radius d) (dab_r d) (dab_g d) (dab_b d) (dab_opaque d) (dab_hardness d) (dab_softness d) (dab_alpha_eraser d)
    (dab_aspect d) (dab_angle d) (dab_lock_alpha d) (dab_colorize d) (dab_posterize d) (dab_posterize_num d) (dab_paint d).
(** Both the event and the moved event are less than 10^8 pixels from the origin. *)
Definition in_range (a c : Z) (e : event mixR) : Prop :=
  (Rabs (ev_x e) < 100000000 /\ Rabs (ev_y e) < 100000000 /\ Rabs (ev_x e + IZR a) < 100000000 /\ Rabs (ev_y e + IZR c) < 100000000)%R.

(** The brush does not look at the canvas or at the grid: no setting has a curve
    over the two grid-map inputs, and it does not smudge. *)
Definition no_grid (m : mapping (sng mixR)) : Prop :=
  mp_used m = 0 \/ forall i c, i = INP_GRIDMAP_X \/ i = INP_GRIDMAP_Y -> nth_error (mp_points m) i = Some c -> cp_n c = 0.
Definition placeless_brush {E : env mixR} (b : brush E) : Prop :=
  Forall no_grid (b_settings b) /\ forall m, nth_error (b_settings b) SET_SMUDGE = Some m -> mp_used m = 0 /\ (mp_base m = 0%R :> R).

(** Two surfaces are related as the original and the moved one: whatever is
    drawn on the first can be drawn, moved, on the second, with the same answer. *)
Definition moved_surfaces {E : env mixR} (a c : Z) (rel : e_surf E -> e_surf E -> Prop) : Prop :=
  forall s1 s2 d p s1', rel s1 s2 -> e_draw E s1 d = Ok (p, s1') -> exists s2', e_draw E s2 (dab_moved a c d) = Ok (p, s2') /\ rel s1' s2'.

(** The second brush is the first at the moved place: its position and its
    smoothed position are moved, everything else but the grid coordinates agrees. *)
Definition at_moved_place {E : env mixR} (a c : Z) (b1 b2 : brush E) : Prop :=
  length (b_states b1) = STATES_COUNT /\ b2 = with_states b1 (b_states b2) /\ length (b_states b2) = STATES_COUNT /\ (b_skip b1 <= / 1000)%R /\
  forall i, i <> STATE_GRIDMAP_X -> i <> STATE_GRIDMAP_Y ->
    (st b2 i = (st b1 i : R) + if (i =? STATE_X)%nat || (i =? STATE_ACTUAL_X)%nat then IZR a else if (i =? STATE_Y)%nat || (i =? STATE_ACTUAL_Y)%nat then IZR c else 0)%R.

Section C55.
  Context (L : mathlib mixR) {E : env mixR} (a c : Z) (rel : e_surf E -> e_surf E -> Prop).
  Hypothesis finite : forall v : sng mixR, finitef_ L v = true.
  Hypothesis HD : moved_surfaces a c rel.

  Lemma play_alike : forall n es b1 b2 w1 w2 l b1' w1', ready a c b1 b2 -> still b1 -> worlds rel w1 w2 -> Forall (in_range a c) es -> play L n es b1 w1 = Ok (Some (l, b1', w1')) ->
    exists b2' w2', play L n (map (event_moved a c) es) b2 w2 = Ok (Some (l, b2', w2')) /\ worlds rel w1' w2'.
  Proof.
    intros n es. induction es as [|e es IH]; intros b1 b2 w1 w2 l b1' w1' Rd St Hw Fe D; cbn [play map] in *.
    - apply Ok_inj in D. injection D as <- <- <-. exists b2, w2. split; [reflexivity|exact Hw].
    - pose proof (Forall_inv Fe) as Ne. apply Forall_inv_tail in Fe. destruct (stroke_to L n b1 w1 e) as [[((r, d1), v1)|]| |] eqn:E1; [|discriminate D|discriminate D|discriminate D]. cbn [obind] in D.
      destruct (stroke_alike L a c rel HD finite _ _ _ _ _ _ _ _ _ Rd St Hw Ne E1) as (d2 & v2 & E2 & A2 & St2 & W2). change (event_moved a c e) with (move_event a c e). rewrite E2. cbn [obind].
      destruct (play L n es d1 v1) as [[((l', k1), u1)|]| |] eqn:E3; [|discriminate D|discriminate D|discriminate D]. cbn [obind option_map] in D. apply Ok_inj in D. injection D as <- <- <-.
      destruct (IH _ _ _ _ _ _ _ (or_introl A2) St2 W2 Fe E3) as (b2' & w2' & E4 & W4). rewrite E4. cbn [obind option_map]. exists b2', w2'. split; [reflexivity|exact W4].
  Qed.

  (** *** The theorem.
      A brush of any past whose reset is pending (as at the start of every stroke
      a program resets for) gets a list of events; then the same brush on the moved surface gets the
      moved events.  It answers the same and leaves the moved surface.  Slow
      tracking is excluded: with it the stroke starts on the way from where the
      brush was before, which has not moved. *)
  Theorem C55_elsewhere : forall n es (b : brush E) w1 w2 l b' w1',
    b_reset b = true -> (base b SET_SLOW_TRACKING <= / 1000)%R -> placeless_brush b ->
    rel (w_surf w1) (w_surf w2) -> w_mix w2 = w_mix w1 -> Forall (in_range a c) es ->
    play L n es b w1 = Ok (Some (l, b', w1')) ->
    exists b2' w2', play L n (map (event_moved a c) es) b w2 = Ok (Some (l, b2', w2')) /\ rel (w_surf w1') (w_surf w2').
  Proof.
    intros n es b w1 w2 l b' w1' Rs Sl Pl Hw Hm Fe D.
    destruct (play_alike n es b b w1 w2 l b' w1' (or_intror (conj eq_refl (conj Rs Sl))) Pl (conj Hw Hm) Fe D) as (b2' & w2' & E2 & W2 & _). exists b2', w2'. split; [exact E2|exact W2].
  Qed.

  (** In the middle of a stroke: two brushes, one at the moved place.  Here slow
      tracking, tracking noise and everything else is allowed. *)
  Theorem C55_elsewhere_within : forall n es (b1 b2 : brush E) w1 w2 l b1' w1',
    at_moved_place a c b1 b2 -> placeless_brush b1 ->
    rel (w_surf w1) (w_surf w2) -> w_mix w2 = w_mix w1 -> Forall (in_range a c) es ->
    play L n es b1 w1 = Ok (Some (l, b1', w1')) ->
    exists b2' w2', play L n (map (event_moved a c) es) b2 w2 = Ok (Some (l, b2', w2')) /\ rel (w_surf w1') (w_surf w2').
  Proof.
    intros n es b1 b2 w1 w2 l b1' w1' (H1 & F & H2 & Sk & S) Pl Hw Hm Fe D.
    assert (alike a c b1 b2) as A.
    { split; [exact H1|exact H2| |rewrite F; destruct b1; reflexivity|left; exact Sk]. intros i. unfold goes, is_x, is_y, is_grid.
      destruct (Nat.eqb_spec i STATE_GRIDMAP_X) as [->|N1]; [exact Logic.I|]. destruct (Nat.eqb_spec i STATE_GRIDMAP_Y) as [->|N2]; [exact Logic.I|]. specialize (S i N1 N2).
      destruct (_ || _); [exact S|]. destruct (_ || _); [exact S|]. cbn [orb]. etransitivity; [exact S|apply Rplus_0_r]. }
    destruct (play_alike n es b1 b2 w1 w2 l b1' w1' (or_introl A) Pl (conj Hw Hm) Fe D) as (b2' & w2' & E2 & W2 & _). exists b2', w2'. split; [exact E2|exact W2].
  Qed.
End C55.

(** *** The dabs.
    On a surface that only records what it is asked to draw, the second run draws
    the dabs of the first, moved, in the same order.  [painted] is the surface's
    answer to a dab; it must not depend on the place. *)
Definition recorder (rng : Type) (next : rng -> outcome (car (dbl mixR) * rng)) (painted : dab mixR -> bool) : env mixR :=
  mkEnv mixR rng next (list (dab mixR)) (fun l d => Ok (painted d, l ++ [d])) (fun l _ _ _ _ => Ok ((0%R, 0%R, 0%R, 0%R) : rgba mixR, l)).

Lemma recorder_moved : forall rng next painted a c, (forall d, painted (dab_moved a c d) = painted d) ->
  moved_surfaces (E := recorder rng next painted) a c (fun l1 l2 => l2 = map (dab_moved a c) l1).
Proof.
  intros rng next painted a c Hp s1 s2 d p s1' -> H. cbn [recorder e_draw] in *. apply Ok_inj in H. injection H as <- <-. eexists. split; [rewrite Hp; reflexivity|]. rewrite map_app. reflexivity.
Qed.

Theorem C55_dabs : forall (L : mathlib mixR) rng next painted a c n es (b : brush (recorder rng next painted)) mix l b' w', (forall v : sng mixR, finitef_ L v = true) ->
  (forall d, painted (dab_moved a c d) = painted d) ->
  b_reset b = true -> (base b SET_SLOW_TRACKING <= / 1000)%R -> placeless_brush b -> Forall (in_range a c) es ->
  play L n es b (mkWorld (E := recorder rng next painted) (M := mixR) [] mix) = Ok (Some (l, b', w')) ->
  exists b2' w2', play L n (map (event_moved a c) es) b (mkWorld (E := recorder rng next painted) (M := mixR) [] mix) = Ok (Some (l, b2', w2')) /\ w_surf w2' = map (dab_moved a c) (w_surf w').
Proof.
  intros L rng next painted a c n es b mix l b' w' Hf Hp Rs Sl Pl Fe D.
  exact (C55_elsewhere L a c _ Hf (recorder_moved rng next painted a c Hp) n es b (mkWorld (E := recorder rng next painted) (M := mixR) [] mix) (mkWorld (E := recorder rng next painted) (M := mixR) [] mix) l b' w' Rs Sl Pl eq_refl eq_refl Fe D).
Qed.

(** *** Cases.
    The brush of C34's case (radius 1, two dabs per radius, at the origin) with a
    recorder; an event at (3, 4) makes it paint ten dabs.  The same brush 100
    pixels to the right and 7 up paints the same ten dabs there. *)
Definition tape : env mixR := recorder unit (fun g => Ok ((1 / 2)%R : dbl mixR, g)) (fun _ => true).
Definition blank : world tape := mkWorld (E := tape) (M := mixR) [] ((0%R, 0%R, 0%R, 0%R) : rgba mixR).
Definition shifted_states (i : nat) : R := (two_per_radius_states i + if (i =? STATE_X)%nat || (i =? STATE_ACTUAL_X)%nat then 100 else if (i =? STATE_Y)%nat || (i =? STATE_ACTUAL_Y)%nat then -7 else 0)%R.
Definition here : brush tape := flat_on (E := tape) tt two_per_radius two_per_radius_states.
Definition there : brush tape := flat_on (E := tape) tt two_per_radius shifted_states.

Lemma flat_placeless : forall bv sv, bv SET_SMUDGE = 0%R -> placeless_brush (flat_on (E := tape) tt bv sv).
Proof.
  intros bv sv H. split.
  - apply Forall_forall. intros m Hm. apply In_nth_error in Hm. destruct Hm as (i & N). apply on_setting in N. subst m. left. reflexivity.
  - intros m N. apply on_setting in N. subst m. split; [reflexivity|]. exact H.
Qed.
Lemma here_there : at_moved_place 100 (-7) here there.
Proof.
  split; [apply on_states|]. split; [reflexivity|]. split; [apply on_states|]. split; [cbn; lra|]. intros i _ _.
  destruct (Nat.lt_ge_cases i STATES_COUNT) as [Hi|Hi].
  - unfold here, there. etransitivity; [exact (on_state (E := tape) tt two_per_radius shifted_states i Hi)|]. unfold shifted_states.
    rewrite <- (on_state (E := tape) tt two_per_radius two_per_radius_states i Hi) at 1. reflexivity.
  - unfold st, here, there. rewrite !nth_overflow by (cbn; exact Hi). do 44 (destruct i as [|i]; [vm_compute in Hi; lia|]). cbn. lra.
Qed.

Lemma here_bounded : bounded 2 1 here.
Proof.
  split.
  - intros data vs Ev. unfold at_most. rewrite !(constant_value here _ data vs) by (auto; apply on_constant). unfold here. rewrite !on_base by (vm_compute; lia). unfold two_per_radius. cbn. lra.
  - unfold at_most, here. rewrite !on_state by (vm_compute; lia). unfold two_per_radius_states. cbn. lra.
Qed.

(** an ordinary event: the fuel suffices *)
Definition ordinary (x y : R) : event mixR := mkEvent (M := mixR) (x : sng mixR) (y : sng mixR) (1%R : sng mixR) (0%R : sng mixR) (0%R : sng mixR) ((1 / 10)%R : dbl mixR) (1%R : sng mixR) (0%R : sng mixR) (0%R : sng mixR) false.
Definition level : tilt mixR := mkTilt (M := mixR) (0%R : sng mixR) (90%R : sng mixR) (90%R : sng mixR) (90%R : sng mixR).
Lemma ordinary_sane : forall x y : R, (Rabs x < 100000000 -> Rabs y < 100000000 -> sanitise mathR (ordinary x y) = Ok (level, ordinary x y))%R.
Proof.
  intros x y X Y. apply Rabs_def2 in X, Y. unfold sanitise, read_tilt. cbv zeta. cbn [ordinary ev_xtilt ev_ytilt ev_x ev_y ev_pressure ev_dtime ev_viewzoom ev_viewrotation ev_barrel ev_linear].
  assert (truthy (0%R : sng mixR) = false) as -> by (unfold truthy; cbn; rewrite Req_bool_true; auto). cbn [orb obind].
  change (finitef_ mathR ?v) with true. cbn [negb orb]. change (@nlt (dbl mixR)) with Rlt_bool. change (@nle (dbl mixR)) with Rle_bool. change (@wid mixR) with (fun v : R => v). change (@nofZ (dbl mixR)) with IZR. cbv beta.
  rewrite !(Rle_bool_false _ 0) by lra. rewrite !(Rlt_bool_false 10000000000), !(Rlt_bool_false _ (-10000000000)) by lra. cbn [orb ev_x ev_y].
  rewrite !(Rlt_bool_true _ 100000000), !(Rlt_bool_true (-100000000)) by lra. reflexivity.
Qed.
Lemma ordinary_whole : forall (b : brush tape) w (x y : R), (Rabs x < 100000000 -> Rabs y < 100000000 -> stroke_to mathR 200 b w (ordinary x y) = stroke_rest mathR 200 b w level (ordinary x y))%R.
Proof.
  intros b w x y X Y. unfold stroke_to. rewrite (ordinary_sane x y X Y). cbn [obind]. change (ev_dtime (ordinary x y)) with ((1 / 10)%R : dbl mixR).
  change (@nlt (dbl mixR) (@dec mixR 100 1000) (1 / 10)%R) with (Rlt_bool (100 / 1000) (1 / 10)). rewrite Rlt_bool_false by lra. reflexivity.
Qed.
Lemma moves : forall (b : brush tape) w (x y : R), plain b -> bounded 2 1 b -> (0 <= remainder b < 1)%R -> b_reset b = false -> b_skip b = (0%R : sng mixR) ->
  base b SET_TRACKING_NOISE = (0%R : sng mixR) -> (base b SET_SLOW_TRACKING <= / 1000)%R -> (Rabs x < 100000000)%R -> (Rabs y < 100000000)%R ->
  (remainder b + 10 * 2 * 1 * sqrt ((x - pen_x b) * (x - pen_x b) + (y - pen_y b) * (y - pen_y b)) + 2 * (1 / 10) < 200)%R ->
  exists a b' w', stroke_to mathR 200 b w (ordinary x y) = Ok (Some (a, b', w')).
Proof.
  intros b w x y P B Hr Rs Sk Tn Sl X Y Fu. rewrite (ordinary_whole b w x y X Y). unfold stroke_rest, skip_input. rewrite thousandth, Sk, Rlt_bool_false by lra.
  change (ev_x (ordinary x y)) with (x : sng mixR). change (ev_y (ordinary x y)) with (y : sng mixR). change (ev_dtime (ordinary x y)) with ((1 / 10)%R : dbl mixR).
  rewrite (track_plain mathR b x y _ Tn Sl). cbn [obind]. rewrite Rs, orb_false_r. change (@nlt (dbl mixR) (nofZ 5) (1 / 10)%R) with (Rlt_bool 5 (1 / 10)). rewrite Rlt_bool_false by lra.
  match goal with |- context [paint_to mathR 200 b w ?g ?t] => set (tg := g); set (dt := t) end.
  destruct (paint_to_returns mathR (E := tape) real_1 real_m1 real_11 real_mm real_Z (fun g => ex_intro _ _ eq_refl) (fun s d => ex_intro _ _ eq_refl) 200 b w tg dt P) as (r & Er & _). rewrite Er.
  destruct r as [((a, b'), w')|]; [exists a, b', w'; reflexivity|]. exfalso. unfold paint_to in Er. apply obind_ok in Er. destruct Er as ([p|] & Ep & Er).
  - apply obind_ok in Er. destruct Er as ((a, b') & _ & Er). discriminate Er.
  - refine (C34_ends_partial mathR mathR_ok 2 1 200 b w tg (1 / 10) _ _ _ _ Hr B _ Ep); try lra; [exact (proj1 (proj1 P))|]. rewrite INR_IZR_INZ. change (Z.of_nat 200) with 200. exact Fu.
Qed.

Lemma here_plain : plain here.
Proof. apply on_plain; reflexivity. Qed.
Lemma here_remainder : remainder here = 0%R.
Proof. unfold remainder, here. rewrite on_state by (vm_compute; lia). reflexivity. Qed.
Lemma small : forall v, (-1000 < v < 1000 -> Rabs v < 100000000)%R.
Proof. intros v H. apply Rabs_def1; lra. Qed.

Example C55_within_case : exists l b1' w1' b2' w2', play mathR 200 [ordinary 3 4] here blank = Ok (Some (l, b1', w1')) /\
  play mathR 200 [ordinary 103 (-3)] there blank = Ok (Some (l, b2', w2')) /\ w_surf w2' = map (dab_moved 100 (-7)) (w_surf w1').
Proof.
  destruct (moves here blank 3 4 here_plain here_bounded) as (a & b1' & w1' & E1).
  - rewrite here_remainder. lra. - reflexivity. - reflexivity.
  - unfold here. apply on_base. vm_compute; lia.
  - unfold here. rewrite on_base by (vm_compute; lia). unfold two_per_radius. cbn. lra.
  - apply small; lra. - apply small; lra.
  - rewrite here_remainder. unfold pen_x, pen_y, here. rewrite !on_state by (vm_compute; lia). unfold two_per_radius_states. cbn -[sqrt IZR]. replace ((3 - 0) * (3 - 0) + (4 - 0) * (4 - 0))%R with (5 * 5)%R by ring. rewrite sqrt_square by lra. lra.
  - assert (play mathR 200 [ordinary 3 4] here blank = Ok (Some ([a], b1', w1'))) as P1 by (cbn [play]; rewrite E1; reflexivity). 
    destruct (C55_elsewhere_within mathR 100 (-7) _ (fun _ => eq_refl) (recorder_moved unit _ (fun _ => true) 100 (-7) (fun _ => eq_refl)) 200 [ordinary 3 4] here there blank blank [a] b1' w1' here_there
      (flat_placeless two_per_radius two_per_radius_states eq_refl) eq_refl eq_refl) as (b2' & w2' & P2 & S2); [|exact P1|].
    { constructor; [|constructor]. unfold in_range. cbn [ordinary ev_x ev_y]. repeat split; apply small; lra. }
    exists [a], b1', w1', b2', w2'. split; [exact P1|]. split; [|exact S2]. cbn [map] in P2. 
    assert (event_moved 100 (-7) (ordinary 3 4) = ordinary 103 (-3)) as Ee. { unfold event_moved, ordinary. cbn [ev_x ev_y ev_pressure ev_xtilt ev_ytilt ev_dtime ev_viewzoom ev_viewrotation ev_barrel ev_linear]. f_equal; lra. }
    rewrite Ee in P2. exact P2.
Qed.

(** A brush whose reset is pending, two events, and the same two events elsewhere. *)
Definition rested : brush tape := request_reset here.
Lemma rested_starts : exists b', stroke_to mathR 200 rested blank (ordinary 3 4) = Ok (Some (true, b', blank)) /\ plain b' /\ b_settings b' = b_settings here /\
  b_states b' = initial_states (M := mixR) (3%R : sng mixR) (4%R : sng mixR) (1%R : sng mixR) /\ b_reset b' = false /\ b_skip b' = (0%R : sng mixR).
Proof.
  assert (plain rested) as P by (apply (plain_same here); [exact (proj1 here_plain)|reflexivity|reflexivity|exact here_plain]).
  destruct (do_reset_returns (E := tape) (fun g => ex_intro _ _ eq_refl) rested (3%R : sng mixR) (4%R : sng mixR) (1%R : sng mixR) P) as (b' & D & P').
  exists b'. pose proof (do_reset_states _ _ _ _ _ D) as (S1 & R1). rewrite (do_reset_plain rested _ _ _ eq_refl) in D. cbn [e_next tape recorder obind] in D. apply Ok_inj in D.
  split; [|split; [exact P'|split; [rewrite <- D; reflexivity|split; [exact S1|split; [exact R1|rewrite <- D; reflexivity]]]]].
  rewrite (ordinary_whole rested blank 3 4) by (apply small; lra). unfold stroke_rest, skip_input. change (b_skip rested) with (0%R : sng mixR). rewrite thousandth, Rlt_bool_false by lra.
  rewrite (track_plain mathR rested).
  - cbn [obind]. change (b_reset rested) with true. rewrite orb_true_r. change (ev_x (ordinary 3 4)) with (3%R : sng mixR). change (ev_y (ordinary 3 4)) with (4%R : sng mixR). change (ev_pressure (ordinary 3 4)) with (1%R : sng mixR).
    rewrite (do_reset_plain rested _ _ _ eq_refl). cbn [e_next tape recorder obind]. rewrite <- D. reflexivity.
  - change (base here SET_TRACKING_NOISE = 0%R). unfold here. apply on_base. vm_compute; lia.
  - change (base here SET_SLOW_TRACKING <= / 1000)%R. unfold here. rewrite on_base by (vm_compute; lia). unfold two_per_radius. cbn. lra.
Qed.

Example C55_case : exists l b1' w1' b2' w2', b_reset rested = true /\ placeless_brush rested /\ play mathR 200 [ordinary 3 4; ordinary 6 8] rested blank = Ok (Some (true :: l, b1', w1')) /\
  play mathR 200 [ordinary 103 (-3); ordinary 106 1] rested blank = Ok (Some (true :: l, b2', w2')) /\ w_surf w2' = map (dab_moved 100 (-7)) (w_surf w1').
Proof.
  destruct rested_starts as (b1 & E1 & P1 & S1 & T1 & R1 & K1).
  assert (forall i, base b1 i = base here i) as Bs by (intros i; unfold base; rewrite S1; reflexivity).
  assert (base here SET_TRACKING_NOISE = (0%R : sng mixR)) as Tn by (unfold here; apply on_base; vm_compute; lia).
  assert (base here SET_SLOW_TRACKING <= / 1000)%R as Sl by (unfold here; rewrite on_base by (vm_compute; lia); unfold two_per_radius; cbn; lra).
  assert (remainder b1 = 0%R) as Rm by (unfold remainder, st; rewrite T1; reflexivity).
  destruct (moves b1 blank 6 8 P1) as (a & b1' & w1' & E2).
  - split; [rewrite S1; exact (proj1 here_bounded)|]. unfold at_most, st. rewrite T1. cbn. repeat split; lra.
  - rewrite Rm. lra. - exact R1. - exact K1. - rewrite Bs. exact Tn. - rewrite Bs. exact Sl. - apply small; lra. - apply small; lra.
  - rewrite Rm. unfold pen_x, pen_y, st. rewrite T1. cbn -[sqrt IZR]. replace ((6 - 3) * (6 - 3) + (8 - 4) * (8 - 4))%R with (5 * 5)%R by ring. rewrite sqrt_square by lra. lra.
  - assert (play mathR 200 [ordinary 3 4; ordinary 6 8] rested blank = Ok (Some ([true; a], b1', w1'))) as Q1 by (cbn [play]; rewrite E1; cbn [obind]; rewrite E2; reflexivity).
    assert (placeless_brush rested) as Pl by exact (flat_placeless two_per_radius two_per_radius_states eq_refl).
    destruct (C55_dabs mathR unit _ (fun _ => true) 100 (-7) 200 [ordinary 3 4; ordinary 6 8] rested ((0%R, 0%R, 0%R, 0%R) : rgba mixR) [true; a] b1' w1' (fun _ => eq_refl) (fun _ => eq_refl) eq_refl Sl Pl) as (b2' & w2' & Q2 & S2); [|exact Q1|].
    { repeat constructor; unfold in_range; cbn [ordinary ev_x ev_y]; apply small; lra. }
    exists [a], b1', w1', b2', w2'. split; [reflexivity|]. split; [exact Pl|]. split; [exact Q1|]. split; [|exact S2]. cbn [map] in Q2.
    assert (event_moved 100 (-7) (ordinary 3 4) = ordinary 103 (-3)) as Ea by (unfold event_moved, ordinary; cbn [ev_x ev_y ev_pressure ev_xtilt ev_ytilt ev_dtime ev_viewzoom ev_viewrotation ev_barrel ev_linear]; f_equal; lra).
    assert (event_moved 100 (-7) (ordinary 6 8) = ordinary 106 1) as Eb by (unfold event_moved, ordinary; cbn [ev_x ev_y ev_pressure ev_xtilt ev_ytilt ev_dtime ev_viewzoom ev_viewrotation ev_barrel ev_linear]; f_equal; lra).
    rewrite Ea, Eb in Q2. exact Q2.
Qed.

(** *** With smudging it is false, for the C floats of the program too.
    A canvas that is red up to and including column [k] and blue beyond. *)
Definition halves : env mix64 :=
  mkEnv mix64 unit (fun g => Ok (dlit 1 2 : dbl mix64, g)) (Z * list (dab mix64)) (fun l d => Ok (true, (fst l, d :: snd l)))
    (fun l x _ _ _ => Ok (if fle x (f_of_Z (fst l)) then (f1, f0, f0, f1) : rgba mix64 else (f0, f0, f1, f1), l)).
Definition smudge_run (k : Z) (xs : list Z) : outcome (option (list bool * brush halves * world halves)) :=
  let* b := brush_new (E := halves) toy_lib 0 tt [] [] 0 0 in
  let* r := ofold (fun a c => match a with Some (b, w) => run_call toy_lib 20 b w c | None => Ok None end)
    [set_base SET_SMUDGE f1; set_base SET_SMUDGE_LENGTH f0; set_base SET_OPAQUE f1; set_base SET_OPAQUE_MULTIPLY f1; set_base SET_DABS_PER_ACTUAL_RADIUS f1; set_base SET_HARDNESS (flit 1 2)]
    (Some (b, mkWorld (E := halves) (M := mix64) (k, []) ((f0, f0, f0, f0) : rgba mix64))) in
  match r with None => Ok None | Some (b, w) => play toy_lib 20 (map (fun x => pen x 0 50 10) xs) b w end.
(** the colour of the last dab *)
Definition last_colour (k : Z) (xs : list Z) : option (f32 * f32 * f32) :=
  match smudge_run k xs with
  | Ok (Some (_, _, w)) => match snd (w_surf w) with d :: _ => Some (dab_r d, dab_g d, dab_b d) | [] => None end
  | _ => None
  end.
Definition is_colour (c : option (f32 * f32 * f32)) (r g b : Z) : bool :=
  match c with Some (r', g', b') => feq r' (f_of_Z r) && feq g' (f_of_Z g) && feq b' (f_of_Z b) | None => false end.

(** A stroke along columns 8, 9, 10 ends red, as the pixel under its last dab is
    red.  With canvas and stroke 20 pixels further left it ends blue: the pixel to
    sample is found by adding one half and cutting off, which goes up for negative
    coordinates (mypaint-brush.c 1128, helpers.h 9). *)
Theorem C55_smudge_refuted : exists k xs a, is_colour (last_colour k xs) 1 0 0 = true /\ is_colour (last_colour (k + a) (map (fun x => x + a) xs)) 0 0 1 = true.
Proof. exists 10, [8; 9; 10], (-20). split; vm_compute; reflexivity. Qed.

Print Assumptions C55_elsewhere.
Print Assumptions C55_elsewhere_within.
Print Assumptions C55_dabs.
Print Assumptions C55_smudge_refuted.
