(** The brush engine run twice, with brushes that differ in their colour settings
    only.  Everything but the colours of the dabs stays the same. *)
From Verif Require Import Base F32 Arith Color Mapping Settings Spectral Brush BrushProofs ShiftOffsets.
Local Open Scope Z_scope.

(** the settings that say which colour to paint with *)
Definition is_colour (i : nat) : bool :=
  existsb (Nat.eqb i) [SET_COLOR_H; SET_COLOR_S; SET_COLOR_V; SET_RESTORE_COLOR; SET_CHANGE_COLOR_H; SET_CHANGE_COLOR_L; SET_CHANGE_COLOR_HSL_S; SET_CHANGE_COLOR_V; SET_CHANGE_COLOR_HSV_S].

Section Recolour.
  Context {M : mixed} (L : mathlib M) {E : env M}.
  Notation S := (car (sng M)).
  Notation D := (car (dbl M)).
  Notation s z := (@nofZ (sng M) z).
  Notation d z := (@nofZ (dbl M) z).
  Notation brush := (brush E).
  Notation step_ := (step M).

  Record twin (b1 b2 : brush) : Prop := {
    tw_form : b2 = with_values (with_settings b1 (b_settings b2)) (b_values b2);
    tw_set : forall i, is_colour i = false -> nth_error (b_settings b2) i = nth_error (b_settings b1) i;
    tw_val : forall i, is_colour i = false -> nth i (b_values b2) (s 0) = nth i (b_values b1) (s 0) }.

  Lemma twin_refl : forall b, twin b b.
  Proof. intros b. split; [destruct b; reflexivity|auto|auto]. Qed.
  Lemma twin_st : forall b1 b2 i, twin b1 b2 -> st b2 i = st b1 i.
  Proof. intros b1 b2 i [F _ _]. rewrite F. reflexivity. Qed.
  Lemma twin_val : forall b1 b2 i, twin b1 b2 -> is_colour i = false -> val b2 i = val b1 i.
  Proof. intros b1 b2 i [_ _ V] C. exact (V i C). Qed.
  Lemma twin_base : forall b1 b2 i, twin b1 b2 -> is_colour i = false -> base b2 i = base b1 i.
  Proof. intros b1 b2 i [_ V _] C. unfold base. rewrite (V i C). reflexivity. Qed.
  Lemma twin_constant : forall b1 b2 i, twin b1 b2 -> is_colour i = false -> Brush.constant b2 i = Brush.constant b1 i.
  Proof. intros b1 b2 i [_ V _] C. unfold Brush.constant. rewrite (V i C). reflexivity. Qed.
  Lemma twin_fields : forall b1 b2, twin b1 b2 -> b_random b2 = b_random b1 /\ b_gamma b2 = b_gamma b1 /\ b_m b2 = b_m b1 /\ b_q b2 = b_q b1 /\
    b_rng b2 = b_rng b1 /\ b_reset b2 = b_reset b1 /\ b_skip b2 = b_skip b1 /\ b_skip_x b2 = b_skip_x b1 /\ b_skip_y b2 = b_skip_y b1 /\ b_skipped b2 = b_skipped b1 /\ b_painting b2 = b_painting b1 /\ b_idling b2 = b_idling b1.
  Proof. intros b1 b2 [F _ _]. rewrite F. repeat split; reflexivity. Qed.
  (** changing anything but settings and values on both sides *)
  Lemma twin_change : forall (f : brush -> brush) b1 b2,
    (forall b ms vs, f (with_values (with_settings b ms) vs) = with_values (with_settings (f b) ms) vs) ->
    (forall b, b_settings (f b) = b_settings b) -> (forall b, b_values (f b) = b_values b) -> twin b1 b2 -> twin (f b1) (f b2).
  Proof.
    intros f b1 b2 H1 H2 H3 [F A B]. split.
    - rewrite F at 1. rewrite H1, H2, H3. reflexivity.
    - intros i C. rewrite !H2. exact (A i C).
    - intros i C. rewrite !H3. exact (B i C).
  Qed.
  Lemma twin_put : forall b1 b2 i v, twin b1 b2 -> twin (set_st b1 i v) (set_st b2 i v).
  Proof. intros b1 b2 i v H. apply (twin_change (fun b => set_st b i v)); auto. Qed.
  Lemma twin_rng : forall b1 b2 g, twin b1 b2 -> twin (with_rng b1 g) (with_rng b2 g).
  Proof. intros b1 b2 g H. apply (twin_change (fun b => with_rng b g)); auto. Qed.
  Lemma twin_random : forall b1 b2 g, twin b1 b2 -> twin (with_random b1 g) (with_random b2 g).
  Proof. intros b1 b2 g H. apply (twin_change (fun b => with_random b g)); auto. Qed.
  Lemma twin_times : forall b1 b2 u v, twin b1 b2 -> twin (with_times b1 u v) (with_times b2 u v).
  Proof. intros b1 b2 u v H. apply (twin_change (fun b => with_times b u v)); auto. Qed.
  Lemma twin_reset : forall b1 b2 r, twin b1 b2 -> twin (with_reset b1 r) (with_reset b2 r).
  Proof. intros b1 b2 g H. apply (twin_change (fun b => with_reset b g)); auto. Qed.
  Lemma twin_skip : forall b1 b2 k x y t, twin b1 b2 -> twin (with_skip b1 k x y t) (with_skip b2 k x y t).
  Proof. intros b1 b2 k x y t H. apply (twin_change (fun b => with_skip b k x y t)); auto. Qed.
  Lemma twin_buckets : forall b1 b2 m lo hi, twin b1 b2 -> twin (with_buckets b1 m lo hi) (with_buckets b2 m lo hi).
  Proof. intros b1 b2 m lo hi H. apply (twin_change (fun b => with_buckets b m lo hi)); auto. Qed.
  Lemma twin_states : forall b1 b2 l, twin b1 b2 -> twin (with_states b1 l) (with_states b2 l).
  Proof. intros b1 b2 l H. apply (twin_change (fun b => with_states b l)); auto. Qed.

  Lemma pass_same : forall {A : Type} (e1 e2 : A) (f1 f2 : A -> brush), e2 = e1 -> (forall v, twin (f1 v) (f2 v)) -> twin (pass e1 f1) (pass e2 f2).
  Proof. intros A e1 e2 f1 f2 -> H. apply H. Qed.
  Lemma pass_twin : forall (e1 e2 : brush) (f1 f2 : brush -> brush), twin e1 e2 -> (forall c1 c2, twin c1 c2 -> twin (f1 c1) (f2 c2)) -> twin (pass e1 f1) (pass e2 f2).
  Proof. intros e1 e2 f1 f2 H K. apply K. exact H. Qed.

  (* what the first brush says instead of the second *)
  Ltac same H := rewrite ?(fun i => twin_st _ _ i H);
    repeat match type of H with twin _ ?y => match goal with
      | |- context [val y ?i] => rewrite (twin_val _ _ i H eq_refl)
      | |- context [base y ?i] => rewrite (twin_base _ _ i H eq_refl)
      | |- context [Brush.constant y ?i] => rewrite (twin_constant _ _ i H eq_refl) end end.
  Ltac go := lazymatch goal with
    | H : twin ?x ?y |- twin (pass ?e1 _) (pass ?e2 _) =>
        lazymatch type of e1 with
        | Brush.brush _ => apply pass_twin; [|clear H; let c1 := fresh "c" in let c2 := fresh "c" in let K := fresh "K" in intros c1 c2 K; cbv beta]
        | _ => apply pass_same; [same H; reflexivity|let v := fresh "v" in intros v; cbv beta]
        end end.
  Ltac put := lazymatch goal with
    | H : twin ?x ?y |- twin (set_st ?x ?i _) (set_st ?y ?i _) => same H; apply twin_put; exact H
    | H : twin ?x ?y |- twin ?x ?y => exact H
    | H : twin ?x ?y |- _ => same H; match goal with |- twin (if ?c then _ else _) _ => destruct c end; put end.

  Local Transparent step_pen step_filters step_inputs.
  Lemma pen_twin : forall b1 b2 (p : step_), twin b1 b2 -> twin (step_pen L b1 p) (step_pen L b2 p).
  Proof.
    intros b1 b2 p H. unfold step_pen. repeat (go; try put). destruct (_ && _); [|destruct (_ && _); [put|exact K]]. apply twin_put, twin_put. exact K.
  Qed.
  Lemma filters_twin : forall b1 b2 (p : step_), twin b1 b2 -> twin (step_filters L b1 p) (step_filters L b2 p).
  Proof. intros b1 b2 p H. unfold step_filters, norm_dx, norm_dy, norm_dist, approach. repeat (go; try put). Qed.
  Lemma inputs_twin : forall b1 b2, twin b1 b2 -> step_inputs L b2 = step_inputs L b1.
  Proof. intros b1 b2 H. unfold step_inputs. cbv zeta. destruct (twin_fields _ _ H) as (-> & -> & -> & -> & _). same H. reflexivity. Qed.
  Local Opaque step_pen step_filters step_inputs.

  Lemma calc_nth : forall ms data vs i, calculate_all ms data = Ok vs ->
    match nth_error ms i with Some m => mapping_calculate m data = Ok (nth i vs (s 0)) | None => nth i vs (s 0) = s 0 end.
  Proof.
    induction ms as [|m0 ms IH]; intros data vs i C; cbn [calculate_all] in C; [apply Ok_inj in C; subst vs; destruct i; reflexivity|].
    apply obind_ok in C. destruct C as (v & Ev & C). apply obind_ok in C. destruct C as (vs' & Evs & C). apply Ok_inj in C. subst vs. destruct i as [|i]; cbn; [exact Ev|exact (IH data vs' i Evs)].
  Qed.

  (** *** Brushes that do not smudge *)
  Definition off (v : S) : Prop := truthy v = false /\ nlt (d 0) (@wid M v) = false.
  Hypothesis zero_off : off (s 0).
  Definition clean (ms : list (mapping (sng M))) : Prop := forall m, nth_error ms SET_SMUDGE = Some m -> mp_used m = 0 /\ off (mp_base m).
  Definition dry (b : brush) : Prop := off (val b SET_SMUDGE) /\ Brush.constant b SET_SMUDGE = true.

  Lemma twin_values : forall (b1 b2 : brush) v1 v2, twin b1 b2 -> (forall i, is_colour i = false -> nth i v2 (s 0) = nth i v1 (s 0)) -> twin (with_values b1 v1) (with_values b2 v2).
  Proof. intros b1 b2 v1 v2 [F A B] V. split; [rewrite F at 1; reflexivity|exact A|exact V]. Qed.

  Lemma update_twin : forall b1 b2 (p : step_) b1' b2', twin b1 b2 -> clean (b_settings b1) -> update_states L b1 p = Ok b1' -> update_states L b2 p = Ok b2' ->
    twin b1' b2' /\ b_settings b1' = b_settings b1 /\ dry b1'.
  Proof.
    intros b1 b2 p b1' b2' H Cl U1 U2. unfold update_states in *. cbv zeta in *. apply obind_ok in U1. destruct U1 as (v1 & E1 & U1). apply Ok_inj in U1. apply obind_ok in U2. destruct U2 as (v2 & E2 & U2). apply Ok_inj in U2.
    pose proof (pen_twin _ _ p H) as Hp. rewrite (inputs_twin _ _ Hp) in E2. assert (b_settings (step_pen L b1 p) = b_settings b1) as Es by apply (os_settings _ _ (step_pen_os L b1 p)).
    assert (twin (with_values (step_pen L b1 p) v1) (with_values (step_pen L b2 p) v2)) as Hv.
    { apply twin_values; [exact Hp|]. intros i C. pose proof (tw_set _ _ Hp) as A.
      pose proof (calc_nth _ _ _ i E1) as N1. pose proof (calc_nth _ _ _ i E2) as N2. rewrite (A i C) in N2. destruct (nth_error _ i); [rewrite N1 in N2; apply Ok_inj in N2; symmetry; exact N2|rewrite N1, N2; reflexivity]. }
    subst b1' b2'. split; [apply filters_twin; exact Hv|]. pose proof (step_filters_os L (with_values (step_pen L b1 p) v1) p) as O.
    assert (b_settings (step_filters L (with_values (step_pen L b1 p) v1) p) = b_settings b1) as E3 by (rewrite (os_settings _ _ O); exact Es). split; [exact E3|]. split.
    - unfold val. destruct O as (-> & _). cbn [with_states with_values b_values]. pose proof (calc_nth _ _ _ SET_SMUDGE E1) as N. rewrite Es in N. destruct (nth_error (b_settings b1) SET_SMUDGE) as [m|] eqn:Em; [|rewrite N; exact zero_off].
      destruct (Cl m Em) as (U & B). unfold mapping_calculate in N. rewrite U in N. apply Ok_inj in N. rewrite <- N. exact B.
    - unfold Brush.constant. rewrite E3. destruct (nth_error (b_settings b1) SET_SMUDGE) as [m|] eqn:Em; [|reflexivity]. destruct (Cl m Em) as (U & _). unfold mapping_is_constant. rewrite U. reflexivity.
  Qed.

  (** *** One dab *)
  Lemma offsets_twin : forall b1 b2 r f, twin b1 b2 -> directional_offsets L b2 r f = directional_offsets L b1 r f.
  Proof.
    intros b1 b2 r f H. apply offsets_of; [|apply (twin_st _ _ _ H)..]. intros i Hi. apply (twin_val _ _ _ H). unfold offset_settings in Hi. cbn [In] in Hi.
    repeat (destruct Hi as [<-|Hi]; [reflexivity|]). destruct Hi.
  Qed.
  Lemma position_twin : forall b1 b2 x y b1', twin b1 b2 -> dab_position L b1 = Ok (x, y, b1') ->
    exists b2', dab_position L b2 = Ok (x, y, b2') /\ twin b1' b2' /\ b_values b1' = b_values b1 /\ b_settings b1' = b_settings b1.
  Proof.
    intros b1 b2 x y b1' H P. unfold dab_position in *. cbv zeta in *. same H. destruct (to_i _) as [f| |]; [|discriminate P|discriminate P]. cbn [obind] in *. rewrite (offsets_twin _ _ _ _ H).
    destruct (twin_fields _ _ H) as (_ & _ & _ & _ & Er & _). rewrite Er. set (o := directional_offsets L b1 _ _) in *. destruct (truthy (val b1 SET_OFFSET_BY_RANDOM)).
    - destruct (rand_gauss (b_rng b1)) as [(r1, g1)| |]; [|discriminate P|discriminate P]. cbn [obind] in *. destruct (rand_gauss g1) as [(r2, g2)| |]; [|discriminate P|discriminate P]. cbn [obind] in *.
      apply Ok_inj in P. injection P as <- <- <-. eexists. split; [reflexivity|]. split; [apply twin_rng; exact H|split; reflexivity].
    - apply Ok_inj in P. injection P as <- <- <-. eexists. split; [reflexivity|]. split; [exact H|split; reflexivity].
  Qed.
  Lemma size_twin : forall b1 b2 o r o' b1', twin b1 b2 -> dab_size L b1 o = Ok (r, o', b1') ->
    exists b2', dab_size L b2 o = Ok (r, o', b2') /\ twin b1' b2' /\ b_values b1' = b_values b1 /\ b_settings b1' = b_settings b1.
  Proof.
    intros b1 b2 o r o' b1' H P. unfold dab_size in *. cbv zeta in *. same H. destruct (twin_fields _ _ H) as (_ & _ & _ & _ & Er & _). rewrite Er. destruct (truthy _).
    - destruct (rand_gauss (b_rng b1)) as [(r1, g1)| |]; [|discriminate P|discriminate P]. cbn [obind] in *. apply Ok_inj in P. injection P as <- <- <-. eexists. split; [reflexivity|]. split; [apply twin_rng; exact H|split; reflexivity].
    - apply Ok_inj in P. injection P as <- <- <-. eexists. split; [reflexivity|]. split; [exact H|split; reflexivity].
  Qed.
  Lemma opacity_twin : forall b1 b2, twin b1 b2 -> dab_opacity L b2 = dab_opacity L b1.
  Proof. intros b1 b2 H. unfold dab_opacity. cbv zeta. same H. reflexivity. Qed.

  (** two dabs that differ in colour only *)
  Definition same_dab (d1 d2 : dab M) : Prop :=
    d2 = mkDab (dab_x d1) (dab_y d1) (dab_radius d1) (dab_r d2) (dab_g d2) (dab_b d2) (dab_opaque d1) (dab_hardness d1) (dab_softness d1) (dab_alpha_eraser d1)
      (dab_aspect d1) (dab_angle d1) (dab_lock_alpha d1) (dab_colorize d1) (dab_posterize d1) (dab_posterize_num d1) (dab_paint d1).

  Variable Rs : e_surf E -> e_surf E -> Prop.
  Hypothesis HD : forall s1 s2 d1 d2 p1 p2 s1' s2', Rs s1 s2 -> same_dab d1 d2 -> e_draw E s1 d1 = Ok (p1, s1') -> e_draw E s2 d2 = Ok (p2, s2') -> p2 = p1 /\ Rs s1' s2'.
  Definition worlds (w1 w2 : world E) : Prop := Rs (w_surf w1) (w_surf w2).

  Lemma draw_twin : forall b1 b2 w1 w2 lin r1 r2 b1' b2' w1' w2', twin b1 b2 -> dry b1 -> worlds w1 w2 ->
    prepare_and_draw_dab L b1 w1 lin = Ok (r1, b1', w1') -> prepare_and_draw_dab L b2 w2 lin = Ok (r2, b2', w2') ->
    r2 = r1 /\ twin b1' b2' /\ worlds w1' w2' /\ b_settings b1' = b_settings b1.
  Proof.
    intros b1 b2 w1 w2 lin r1 r2 b1' b2' w1' w2' H ((Z1 & Z2) & Cs) Hw D1 D2. unfold prepare_and_draw_dab in *. cbv zeta in *. rewrite (opacity_twin _ _ H) in D2.
    destruct (dab_position L b1) as [((x, y), c1)| |] eqn:E1; [|discriminate D1|discriminate D1]. destruct (position_twin _ _ _ _ _ H E1) as (c2 & Q & H2 & V2 & S2). rewrite Q in D2. clear Q. cbn [obind] in D1, D2.
    destruct (dab_size L c1 _) as [((ra, op), k1)| |] eqn:E2; [|discriminate D1|discriminate D1]. destruct (size_twin _ _ _ _ _ _ H2 E2) as (k2 & Q & H3 & V3 & S3). rewrite Q in D2. clear Q. cbn [obind] in D1, D2.
    apply obind_ok in D1. destruct D1 as (col1 & _ & D1). apply obind_ok in D2. destruct D2 as (col2 & _ & D2).
    assert (val k1 SET_SMUDGE = val b1 SET_SMUDGE) as Vs by (unfold val; rewrite V3, V2; reflexivity). assert (Brush.constant k1 SET_SMUDGE = true) as Cs' by (unfold Brush.constant in *; rewrite S3, S2; exact Cs).
    assert (b_settings k1 = b_settings b1) as Sk by (rewrite S3; exact S2).
    rewrite (twin_val _ _ SET_SMUDGE H3 eq_refl), (twin_constant _ _ SET_SMUDGE H3 eq_refl) in D2. rewrite Vs, Cs', Z1 in D1, D2. cbn [negb orb] in D1, D2. rewrite andb_false_r in D1, D2. cbn [obind] in D1, D2. rewrite Z2 in D1, D2. cbn [obind] in D1, D2.
    apply obind_ok in D1. destruct D1 as (h1 & _ & D1). apply obind_ok in D2. destruct D2 as (h2 & _ & D2).
    repeat match type of D2 with context [val k2 ?i] => rewrite (twin_val _ _ i H3 eq_refl) in D2 end. rewrite !(twin_st _ _ _ H3) in D2.
    destruct (anti_alias _ _ _) as (ra1, ha1). destruct (snap_pixel _ _ _ _ _) as ((x1, y1), ra2). destruct h1 as ((hr1, hg1), hb1), h2 as ((hr2, hg2), hb2).
    apply obind_ok in D1. destruct D1 as ((p1, s1) & G1 & D1). apply obind_ok in D2. destruct D2 as ((p2, s2) & G2 & D2). apply Ok_inj in D1. apply Ok_inj in D2.
    destruct (HD _ _ _ _ _ _ _ _ Hw (eq_refl : same_dab _ _) G1 G2) as (Ep & R'). injection D1 as <- <- <-. injection D2 as <- <- <-. split; [exact Ep|]. split; [exact H3|]. split; [exact R'|exact Sk].
  Qed.

  Lemma count_twin : forall b1 b2 x y t n b1', twin b1 b2 -> count_dabs_to L b1 x y t = (n, b1') ->
    exists b2', count_dabs_to L b2 x y t = (n, b2') /\ twin b1' b2' /\ b_settings b1' = b_settings b1.
  Proof.
    intros b1 b2 x y t n b1' H C. pose proof (os_settings _ _ (count_os L _ _ _ _ _ _ C)) as Se. unfold count_dabs_to in *. cbv zeta in *. same H.
    set (ra := clamp_radius _) in *. clearbody ra.
    assert (forall c1 c2 : brush, twin c1 c2 -> twin (if neqb (wid (st b1 STATE_ACTUAL_RADIUS)) (d 0) then set_st c1 STATE_ACTUAL_RADIUS ra else c1) (if neqb (wid (st b1 STATE_ACTUAL_RADIUS)) (d 0) then set_st c2 STATE_ACTUAL_RADIUS ra else c2)) as K.
    { intros c1 c2 Hc. destruct (neqb _ _); [apply twin_put; exact Hc|exact Hc]. }
    specialize (K _ _ H). set (e1 := if neqb _ _ then set_st b1 _ _ else b1) in *. set (e2 := if neqb _ _ then set_st b2 _ _ else b2) in *. clearbody e1 e2. same K.
    injection C as <- <-. eexists. split; [reflexivity|]. split; [exact K|exact Se].
  Qed.
  Lemma towards_twin : forall b1 b2 g u v f, twin b1 b2 -> step_towards b2 g u v f = step_towards b1 g u v f.
  Proof. intros b1 b2 g u v f H. unfold step_towards. same H. reflexivity. Qed.

  (** *** An event *)
  Record along (p1 p2 : progress E) : Prop := {
    an_twin : twin (p_brush p1) (p_brush p2); an_clean : clean (b_settings (p_brush p1)); an_world : worlds (p_world p1) (p_world p2);
    an_painted : p_painted p2 = p_painted p1; an_left : p_left p2 = p_left p1; an_moved : p_moved p2 = p_moved p1; an_todo : p_todo p2 = p_todo p1 }.

  Lemma one_along : forall g p1 p2 p1' p2', along p1 p2 -> one_dab L g p1 = Ok p1' -> one_dab L g p2 = Ok p2' -> along p1' p2' /\ b_settings (p_brush p1') = b_settings (p_brush p1).
  Proof.
    intros g p1 p2 p1' p2' [H St Hw Ep El Em Et] D1 D2. unfold one_dab in *. cbv zeta in *. rewrite Em, Et, El, Ep in D2.
    destruct (if nlt _ _ then _ else _) as (ddab, moved). rewrite (towards_twin _ _ g _ _ _ H) in D2.
    apply obind_ok in D1. destruct D1 as (c1 & E1 & D1). apply obind_ok in D2. destruct D2 as (c2 & E2 & D2). destruct (update_twin _ _ _ _ _ H St E1 E2) as (H2 & S2 & Dr).
    rewrite (twin_st _ _ _ H2) in D2. apply obind_ok in D1. destruct D1 as (((pn1, c3), w3) & E3 & D1). apply obind_ok in D2. destruct D2 as (((pn2, c4), w4) & E4 & D2).
    destruct (draw_twin _ _ _ _ _ _ _ _ _ _ _ (twin_put _ _ STATE_FLIP (nmul (st c1 STATE_FLIP) (nofZ (-1))) H2) Dr Hw E3 E4) as (-> & H4 & W4 & S4).
    destruct (twin_fields _ _ H4) as (_ & _ & _ & _ & Er & _). rewrite Er in D2. destruct (e_next E (b_rng c3)) as [(rr, rg)| |]; [|discriminate D1|discriminate D1]. cbn [obind] in D1, D2.
    destruct (count_dabs_to L (with_random (with_rng c3 rg) rr) _ _ _) as (n, c5) eqn:E5.
    destruct (count_twin _ _ _ _ _ _ _ (twin_random _ _ rr (twin_rng _ _ rg H4)) E5) as (c6 & Q & H6 & S6). rewrite Q in D2. clear Q. apply Ok_inj in D1. apply Ok_inj in D2. subst p1' p2'.
    assert (b_settings c5 = b_settings (p_brush p1)) as S5 by (rewrite S6; cbn [with_random with_rng b_settings]; rewrite S4; exact S2).
    split; [|exact S5]. split; try reflexivity; [exact H6| |exact W4]. cbn [p_brush]. rewrite S5. exact St.
  Qed.
  Lemma dabs_along : forall n g p1 p2 p1' p2', along p1 p2 -> dabs L n g p1 = Ok (Some p1') -> dabs L n g p2 = Ok (Some p2') -> along p1' p2' /\ b_settings (p_brush p1') = b_settings (p_brush p1).
  Proof.
    induction n as [|n IH]; intros g p1 p2 p1' p2' A D1 D2; cbn [dabs] in *; (assert (pending p2 = pending p1) as Q by (unfold pending; rewrite (an_moved _ _ A), (an_todo _ _ A); reflexivity)); rewrite Q in D2; destruct (pending p1).
    - discriminate D1.
    - apply Ok_inj in D1. apply Ok_inj in D2. injection D1 as <-. injection D2 as <-. auto.
    - apply obind_ok in D1. destruct D1 as (q1 & E1 & D1). apply obind_ok in D2. destruct D2 as (q2 & E2 & D2). destruct (one_along _ _ _ _ _ A E1 E2) as (A2 & S2). destruct (IH _ _ _ _ _ A2 D1 D2) as (A3 & S3). split; [exact A3|rewrite S3; exact S2].
    - apply Ok_inj in D1. apply Ok_inj in D2. injection D1 as <-. injection D2 as <-. auto.
  Qed.

  Lemma split_twin : forall b1 b2 pa pr dp dt a1 a2 b1' b2', twin b1 b2 -> stroke_split b1 pa pr dp dt = (a1, b1') -> stroke_split b2 pa pr dp dt = (a2, b2') -> a2 = a1 /\ twin b1' b2' /\ b_settings b1' = b_settings b1.
  Proof.
    intros b1 b2 pa pr dp dt a1 a2 b1' b2' H D1 D2. unfold stroke_split in *. cbv zeta in *. destruct (twin_fields _ _ H) as (_ & _ & _ & _ & _ & _ & _ & _ & _ & _ & P1 & P2). rewrite P1, P2 in D2.
    destruct (match pa with Some v => v | None => _ end).
    - injection D1 as <- <-. injection D2 as <- <-. split; [reflexivity|]. split; [apply twin_times; exact H|reflexivity].
    - cbn [b_painting b_idling with_times] in *. destruct (neqb _ _); injection D1 as <- <-; injection D2 as <- <-; (split; [reflexivity|]; split; [apply twin_times; exact H|reflexivity]).
  Qed.

  Lemma paint_twin : forall n b1 b2 w1 w2 g dt r1 r2 b1' b2' w1' w2', twin b1 b2 -> clean (b_settings b1) -> worlds w1 w2 ->
    paint_to L n b1 w1 g dt = Ok (Some (r1, b1', w1')) -> paint_to L n b2 w2 g dt = Ok (Some (r2, b2', w2')) ->
    r2 = r1 /\ twin b1' b2' /\ worlds w1' w2' /\ b_settings b1' = b_settings b1.
  Proof.
    intros n b1 b2 w1 w2 g dt r1 r2 b1' b2' w1' w2' H St Hw D1 D2. unfold paint_to, paint_dabs in *. cbv zeta in *. rewrite (twin_st _ _ _ H) in D2.
    destruct (count_dabs_to L b1 _ _ _) as (n0, c1) eqn:E1. destruct (count_twin _ _ _ _ _ _ _ H E1) as (c2 & Q & H2 & S2). rewrite Q in D2. clear Q.
    apply obind_ok in D1. destruct D1 as ([q1|] & E2 & D1); [|discriminate D1]. apply obind_ok in D2. destruct D2 as ([q2|] & E3 & D2); [|discriminate D2].
    match type of E2 with dabs _ _ _ ?p = _ => match type of E3 with dabs _ _ _ ?q = _ => assert (along p q) as A end end.
    { split; try reflexivity; [exact H2| |exact Hw]. cbn [p_brush]. rewrite S2. exact St. }
    destruct (dabs_along _ _ _ _ _ _ A E2 E3) as ([H' St2 Hw2 Ep El Em Et] & S3). cbn [p_brush] in S3. rewrite S2 in S3. clear A E2 E3 E1 H2.
    apply obind_ok in D1. destruct D1 as ((a1, e1) & F1 & D1). apply obind_ok in D2. destruct D2 as ((a2, e2) & F2 & D2). unfold paint_rest, last_step in *. cbv zeta in *. rewrite Em, Et, El, Ep, (towards_twin _ _ g _ _ _ H') in F2.
    apply obind_ok in F1. destruct F1 as (k1 & G1 & F1). apply obind_ok in F2. destruct F2 as (k2 & G2 & F2). apply Ok_inj in F1. apply Ok_inj in F2.
    destruct (update_twin _ _ _ _ _ H' St2 G1 G2) as (H3 & S4 & _).
    destruct (split_twin _ _ _ _ _ _ _ _ _ _ (twin_put _ _ STATE_PARTIAL_DABS (nadd (p_moved q1) (p_todo q1)) H3) F1 F2) as (-> & H5 & S5).
    apply Ok_inj in D1. apply Ok_inj in D2. injection D1 as <- <- <-. injection D2 as <- <- <-. split; [reflexivity|]. split; [exact H5|]. split; [exact Hw2|]. rewrite S5. change (b_settings k1 = b_settings b1). rewrite S4. exact S3.
  Qed.

  Lemma skip_twin : forall b1 b2 x y dt b1' go, twin b1 b2 -> skip_input L b1 x y dt = (b1', go) ->
    exists b2', skip_input L b2 x y dt = (b2', go) /\ twin b1' b2' /\ b_settings b1' = b_settings b1.
  Proof.
    intros b1 b2 x y dt b1' go H P. unfold skip_input in *. cbv zeta in *. destruct (twin_fields _ _ H) as (_ & _ & _ & _ & _ & -> & -> & -> & -> & -> & _).
    destruct (nlt _ _); [destruct (_ && _)|]; injection P as <- <-; (eexists; split; [reflexivity|]; split; [|reflexivity]); [apply twin_skip; exact H|apply twin_skip; exact H|exact H].
  Qed.
  Lemma track_twin : forall b1 b2 x y dt x' y' b1', twin b1 b2 -> track L b1 x y dt = Ok (x', y', b1') ->
    exists b2', track L b2 x y dt = Ok (x', y', b2') /\ twin b1' b2' /\ b_settings b1' = b_settings b1.
  Proof.
    intros b1 b2 x y dt x' y' b1' H P. unfold track in *. cbv zeta in *. same H. destruct (twin_fields _ _ H) as (_ & _ & _ & _ & Er & _).
    set (noise := nmul (expf_ L _) _) in *. clearbody noise. destruct (truthy _); [destruct (nlt _ _)|].
    - cbn [b_rng with_skip b_skipped] in *. rewrite Er. destruct (rand_gauss (b_rng b1)) as [(r1, g1)| |]; [|discriminate P|discriminate P]. cbn [obind] in *. destruct (rand_gauss g1) as [(r2, g2)| |]; [|discriminate P|discriminate P]. cbn [obind] in *.
      apply Ok_inj in P. destruct (twin_fields _ _ H) as (_ & _ & _ & _ & _ & _ & _ & _ & _ & Ek & _). rewrite Ek.
      match type of P with (_, _, ?z) = _ => match goal with |- exists b2', Ok (_, _, ?z2) = _ /\ _ => assert (twin z z2) as T by (apply twin_rng, twin_skip; exact H); set (t1 := z) in *; set (t2 := z2) in * end end.
      assert (b_settings t1 = b_settings b1) as Se by reflexivity. clearbody t1 t2. same T. injection P as <- <- <-. eexists. split; [reflexivity|]. split; [exact T|exact Se].
    - cbn [obind] in *. same H. apply Ok_inj in P. injection P as <- <- <-. eexists. split; [reflexivity|]. split; [exact H|reflexivity].
    - cbn [obind] in *. same H. apply Ok_inj in P. injection P as <- <- <-. eexists. split; [reflexivity|]. split; [exact H|reflexivity].
  Qed.

  Lemma reset_twin : forall b1 b2 x y p b1', twin b1 b2 -> do_reset b1 x y p = Ok b1' -> exists b2', do_reset b2 x y p = Ok b2' /\ twin b1' b2' /\ b_settings b1' = b_settings b1.
  Proof.
    intros b1 b2 x y p b1' H P. unfold do_reset in *.
    assert (forall c1 c2 c1' : brush, twin c1 c2 -> brush_reset c1 = Ok c1' -> exists c2', brush_reset c2 = Ok c2' /\ twin c1' c2' /\ b_settings c1' = b_settings c1) as BR.
    { clear. intros c1 c2 c1' H P. unfold brush_reset in *. cbv zeta in *. cbn [with_states with_skip b_buckets b_minb b_maxb] in *.
      assert (b_buckets c2 = b_buckets c1 /\ b_minb c2 = b_minb c1 /\ b_maxb c2 = b_maxb c1) as (-> & -> & ->) by (rewrite (tw_form _ _ H); repeat split; reflexivity).
      destruct (b_buckets c1) as [mem|]; [|apply Ok_inj in P; subst c1'; eexists; split; [reflexivity|]; split; [apply twin_states, twin_skip; exact H|reflexivity]].
      destruct (negb _); [|apply Ok_inj in P; subst c1'; eexists; split; [reflexivity|]; split; [apply twin_states, twin_skip; exact H|reflexivity]].
      destruct (clear _ _ _) as [m| |]; [|discriminate P|discriminate P]. cbn [obind] in *. apply Ok_inj in P. subst c1'. eexists. split; [reflexivity|]. split; [apply twin_buckets, twin_states, twin_skip; exact H|reflexivity]. }
    destruct (brush_reset (with_reset b1 false)) as [c1| |] eqn:E1; [|discriminate P|discriminate P]. destruct (BR _ _ _ (twin_reset _ _ false H) E1) as (c2 & -> & H2 & S2). cbn [obind] in *.
    destruct (twin_fields _ _ H2) as (_ & _ & _ & _ & Er & _). rewrite Er. destruct (e_next E (b_rng c1)) as [(r, g)| |]; [|discriminate P|discriminate P]. cbn [obind] in *. cbv zeta in *. apply Ok_inj in P.
    eexists. split; [reflexivity|]. subst b1'. split; [|exact S2]. pose proof (twin_random _ _ r (twin_rng _ _ g H2)) as T. set (t1 := with_random (with_rng c1 g) r) in *. set (t2 := with_random (with_rng c2 g) r) in *. clearbody t1 t2.
    pose proof (twin_put _ _ STATE_PRESSURE p (twin_put _ _ STATE_Y y (twin_put _ _ STATE_X x T))) as T1. set (u1 := set_st (set_st (set_st t1 _ _) _ _) _ _) in *. set (u2 := set_st (set_st (set_st t2 _ _) _ _) _ _) in *. clearbody u1 u2.
    rewrite (twin_st _ _ STATE_X T1). pose proof (twin_put _ _ STATE_ACTUAL_X (st u1 STATE_X) T1) as T2. set (v1 := set_st u1 _ _) in *. set (v2 := set_st u2 _ _) in *. clearbody v1 v2. rewrite (twin_st _ _ STATE_Y T2). apply twin_put, twin_put. exact T2.
  Qed.

  Lemma rest_twin : forall n b1 b2 w1 w2 t e r1 r2 b1' b2' w1' w2', twin b1 b2 -> clean (b_settings b1) -> worlds w1 w2 ->
    stroke_rest L n b1 w1 t e = Ok (Some (r1, b1', w1')) -> stroke_rest L n b2 w2 t e = Ok (Some (r2, b2', w2')) ->
    r2 = r1 /\ twin b1' b2' /\ worlds w1' w2' /\ b_settings b1' = b_settings b1.
  Proof.
    intros n b1 b2 w1 w2 t e r1 r2 b1' b2' w1' w2' H St Hw D1 D2. unfold stroke_rest in *.
    destruct (skip_input L b1 (ev_x e) (ev_y e) (ev_dtime e)) as (d1, go) eqn:E1. destruct (skip_twin _ _ _ _ _ _ _ H E1) as (d2 & Q & H2 & S2). rewrite Q in D2. clear Q. destruct go as [dt|].
    2:{ apply Ok_inj in D1. apply Ok_inj in D2. injection D1 as <- <- <-. injection D2 as <- <- <-. auto. }
    destruct (track L d1 (ev_x e) (ev_y e) dt) as [((x, y), c1)| |] eqn:E2; [|discriminate D1|discriminate D1]. destruct (track_twin _ _ _ _ _ _ _ _ H2 E2) as (c2 & Q & H3 & S3). rewrite Q in D2. clear Q. cbn [obind] in D1, D2.
    destruct (twin_fields _ _ H3) as (_ & _ & _ & _ & _ & Er & _). rewrite Er in D2. destruct (_ || _).
    - destruct (do_reset c1 x y (ev_pressure e)) as [k1| |] eqn:E3; [|discriminate D1|discriminate D1]. destruct (reset_twin _ _ _ _ _ _ H3 E3) as (k2 & Q & H4 & S4). rewrite Q in D2. cbn [obind] in D1, D2.
      apply Ok_inj in D1. apply Ok_inj in D2. injection D1 as <- <- <-. injection D2 as <- <- <-. split; [reflexivity|]. split; [exact H4|]. split; [exact Hw|]. rewrite S4, S3. exact S2.
    - assert (clean (b_settings c1)) as St3 by (rewrite S3, S2; exact St). destruct (paint_twin _ _ _ _ _ _ _ _ _ _ _ _ _ H3 St3 Hw D1 D2) as (A & B & C & F). split; [exact A|]. split; [exact B|]. split; [exact C|]. rewrite F, S3. exact S2.
  Qed.

  Theorem stroke_twin : forall n b1 b2 w1 w2 e r1 r2 b1' b2' w1' w2', twin b1 b2 -> clean (b_settings b1) -> worlds w1 w2 ->
    stroke_to L n b1 w1 e = Ok (Some (r1, b1', w1')) -> stroke_to L n b2 w2 e = Ok (Some (r2, b2', w2')) ->
    r2 = r1 /\ twin b1' b2' /\ worlds w1' w2' /\ b_settings b1' = b_settings b1.
  Proof.
    intros n b1 b2 w1 w2 e r1 r2 b1' b2' w1' w2' H St Hw D1 D2. unfold stroke_to in *. destruct (sanitise L e) as [(t, e1)| |]; [|discriminate D1|discriminate D1]. cbn [obind] in D1, D2. rewrite (twin_st _ _ _ H) in D2.
    destruct (_ && _ && _); [|exact (rest_twin _ _ _ _ _ _ _ _ _ _ _ _ _ H St Hw D1 D2)].
    destruct (sanitise L (silent_event e1)) as [(t', e')| |]; [|discriminate D1|discriminate D1]. cbn [obind] in D1, D2.
    apply obind_ok in D1. destruct D1 as ([((a1, c1), v1)|] & E1 & D1); [|discriminate D1]. apply obind_ok in D2. destruct D2 as ([((a2, c2), v2)|] & E2 & D2); [|discriminate D2].
    destruct (rest_twin _ _ _ _ _ _ _ _ _ _ _ _ _ H St Hw E1 E2) as (_ & H2 & W2 & S2). assert (clean (b_settings c1)) as St2 by (rewrite S2; exact St).
    destruct (rest_twin _ _ _ _ _ _ _ _ _ _ _ _ _ H2 St2 W2 D1 D2) as (A & B & C & F). split; [exact A|]. split; [exact B|]. split; [exact C|]. rewrite F. exact S2.
  Qed.

  (** *** Sessions *)
  (** what a call says about colours may differ *)
  Inductive alike_calls : call M -> call M -> Prop :=
  | al_same c : alike_calls c c
  | al_base i j u v : is_colour (Z.to_nat i) = true -> is_colour (Z.to_nat j) = true -> alike_calls (CBase i u) (CBase j v)
  | al_n i j k l m n : is_colour (Z.to_nat i) = true -> is_colour (Z.to_nat j) = true -> alike_calls (CMapN i k m) (CMapN j l n)
  | al_point i j k l m n x y u v : is_colour (Z.to_nat i) = true -> is_colour (Z.to_nat j) = true -> alike_calls (CMapPoint i k m x y) (CMapPoint j l n u v).
  (** a call that leaves smudging alone *)
  Definition no_smudge (c : call M) : Prop :=
    match c with CBase i _ | CMapN i _ _ | CMapPoint i _ _ _ _ => Z.to_nat i <> SET_SMUDGE | _ => True end.

  Lemma upd_nth : forall {A} (l : list A) i j v, i <> j -> nth_error (upd l i v) j = nth_error l j.
  Proof. intros A l. induction l as [|x l IH]; intros i j v H; destruct i, j; cbn; try reflexivity; [destruct (H eq_refl)|apply IH; auto]. Qed.
  Lemma upd_at : forall {A} (l : list A) i v x, nth_error l i = Some x -> nth_error (upd l i v) i = Some v.
  Proof. intros A l. induction l as [|y l IH]; intros i v x H; destruct i; cbn in *; try discriminate H; [reflexivity|eapply IH; exact H]. Qed.

  Lemma twin_settings : forall (b1 b2 : brush) l1 l2, twin b1 b2 -> (forall i, is_colour i = false -> nth_error l2 i = nth_error l1 i) -> twin (with_settings b1 l1) (with_settings b2 l2).
  Proof. intros b1 b2 l1 l2 [F A B] V. split; [rewrite F at 1; reflexivity|exact V|exact B]. Qed.
  Lemma twin_speed : forall b1 b2, twin b1 b2 -> twin (speed_mapping L b1) (speed_mapping L b2).
  Proof.
    intros b1 b2 H. unfold speed_mapping. rewrite (twin_base _ _ SET_SPEED1_GAMMA H eq_refl), (twin_base _ _ SET_SPEED2_GAMMA H eq_refl).
    match goal with |- twin (with_speed _ ?g ?m ?q) _ => apply (twin_change (fun b => with_speed b g m q)); auto end.
  Qed.
  Lemma setting_inv : forall (b : brush) i m, setting_of b i = Ok m -> nth_error (b_settings b) (Z.to_nat i) = Some m.
  Proof. intros b i m H. unfold setting_of in H. destruct (_ && _); [|discriminate H]. destruct (nth_error _ _) as [m'|]; [|discriminate H]. apply Ok_inj in H. rewrite H. reflexivity. Qed.
  (** the same edit of the same setting, or edits of colours *)
  Lemma edit_twin : forall b1 b2 i j m1 m2 n1 n2, twin b1 b2 -> setting_of b1 i = Ok m1 -> setting_of b2 j = Ok m2 ->
    (is_colour (Z.to_nat i) = true /\ is_colour (Z.to_nat j) = true \/ i = j /\ (m1 = m2 -> n1 = n2)) ->
    twin (with_settings b1 (upd (b_settings b1) (Z.to_nat i) n1)) (with_settings b2 (upd (b_settings b2) (Z.to_nat j) n2)).
  Proof.
    intros b1 b2 i j m1 m2 n1 n2 H S1 S2 C. apply setting_inv in S1. apply setting_inv in S2. apply twin_settings; [exact H|]. intros k Ck.
    assert (forall q, is_colour q = true -> q <> k) as Nk by (intros q Q ->; rewrite Q in Ck; discriminate Ck).
    destruct C as [(C1 & C2)|(<- & C)]; [rewrite !upd_nth by auto; exact (tw_set _ _ H k Ck)|].
    destruct (Nat.eq_dec (Z.to_nat i) k) as [<-|N]; [|rewrite !upd_nth by auto; exact (tw_set _ _ H k Ck)].
    rewrite (upd_at _ _ _ _ S1), (upd_at _ _ _ _ S2). rewrite (tw_set _ _ H _ Ck), S1 in S2. injection S2 as S2. rewrite (C S2). reflexivity.
  Qed.
  Lemma clean_edit : forall ms i m, clean ms -> i <> SET_SMUDGE -> clean (upd ms i m).
  Proof. intros ms i m C N m' E'. rewrite upd_nth in E' by auto. exact (C m' E'). Qed.

  Lemma call_twin : forall n b1 b2 w1 w2 c1 c2 b1' b2' w1' w2', twin b1 b2 -> clean (b_settings b1) -> worlds w1 w2 -> alike_calls c1 c2 -> no_smudge c1 ->
    run_call L n b1 w1 c1 = Ok (Some (b1', w1')) -> run_call L n b2 w2 c2 = Ok (Some (b2', w2')) -> twin b1' b2' /\ clean (b_settings b1') /\ worlds w1' w2'.
  Proof.
    intros n b1 b2 w1 w2 c1 c2 b1' b2' w1' w2' H Cl Hw Al Ns D1 D2.
    assert (forall i j u v, CBase i u = c1 -> CBase j v = c2 -> is_colour (Z.to_nat i) = true /\ is_colour (Z.to_nat j) = true \/ i = j /\ u = v -> twin b1' b2' /\ clean (b_settings b1') /\ worlds w1' w2') as KB.
    { intros i j u v <- <- C. cbn [run_call] in *. unfold set_base_value in *. apply obind_ok in D1. destruct D1 as (e1 & E1 & D1). apply obind_ok in E1. destruct E1 as (m1 & M1 & E1). apply obind_ok in D2. destruct D2 as (e2 & E2 & D2). apply obind_ok in E2. destruct E2 as (m2 & M2 & E2).
      apply Ok_inj in D1. apply Ok_inj in D2. apply Ok_inj in E1. apply Ok_inj in E2. injection D1 as <- <-. injection D2 as <- <-. subst e1 e2. split; [apply twin_speed; eapply edit_twin; eauto; destruct C as [C|(-> & ->)]; [left; exact C|right; split; [reflexivity|intros ->; reflexivity]]|].
      split; [apply clean_edit; [exact Cl|exact Ns]|exact Hw]. }
    assert (forall i j k l m o, CMapN i k m = c1 -> CMapN j l o = c2 -> is_colour (Z.to_nat i) = true /\ is_colour (Z.to_nat j) = true \/ i = j /\ k = l /\ m = o -> twin b1' b2' /\ clean (b_settings b1') /\ worlds w1' w2') as KN.
    { intros i j k l m o <- <- C. cbn [run_call] in *. unfold set_mapping_n in *. apply obind_ok in D1. destruct D1 as (e1 & E1 & D1). apply obind_ok in E1. destruct E1 as (m1 & M1 & E1). apply obind_ok in E1. destruct E1 as (o1 & O1 & E1). apply obind_ok in D2. destruct D2 as (e2 & E2 & D2). apply obind_ok in E2. destruct E2 as (m2 & M2 & E2). apply obind_ok in E2. destruct E2 as (o2 & O2 & E2).
      apply Ok_inj in D1. apply Ok_inj in D2. apply Ok_inj in E1. apply Ok_inj in E2. injection D1 as <- <-. injection D2 as <- <-. subst e1 e2.
      split; [eapply edit_twin; eauto; destruct C as [C|(-> & -> & ->)]; [left; exact C|right; split; [reflexivity|intros <-; rewrite O1 in O2; apply Ok_inj in O2; exact O2]]|]. split; [apply clean_edit; [exact Cl|exact Ns]|exact Hw]. }
    assert (forall i j k l m o x y u v, CMapPoint i k m x y = c1 -> CMapPoint j l o u v = c2 -> is_colour (Z.to_nat i) = true /\ is_colour (Z.to_nat j) = true \/ i = j /\ k = l /\ m = o /\ x = u /\ y = v -> twin b1' b2' /\ clean (b_settings b1') /\ worlds w1' w2') as KP.
    { intros i j k l m o x y u v <- <- C. cbn [run_call] in *. unfold set_mapping_point in *. apply obind_ok in D1. destruct D1 as (e1 & E1 & D1). apply obind_ok in E1. destruct E1 as (m1 & M1 & E1). apply obind_ok in E1. destruct E1 as (o1 & O1 & E1). apply obind_ok in D2. destruct D2 as (e2 & E2 & D2). apply obind_ok in E2. destruct E2 as (m2 & M2 & E2). apply obind_ok in E2. destruct E2 as (o2 & O2 & E2).
      apply Ok_inj in D1. apply Ok_inj in D2. apply Ok_inj in E1. apply Ok_inj in E2. injection D1 as <- <-. injection D2 as <- <-. subst e1 e2.
      split; [eapply edit_twin; eauto; destruct C as [C|(-> & -> & -> & -> & ->)]; [left; exact C|right; split; [reflexivity|intros <-; rewrite O1 in O2; apply Ok_inj in O2; exact O2]]|]. split; [apply clean_edit; [exact Cl|exact Ns]|exact Hw]. }
    destruct Al as [c|i j u v C1 C2|i j k l m o C1 C2|i j k l m o x y u v C1 C2]; [|eapply KB; eauto|eapply KN; eauto|eapply KP; eauto].
    destruct c as [e| | |i v|i k m|i k m x y|i v|i k]; [| | |eapply KB; eauto|eapply KN; eauto|eapply KP; [reflexivity|reflexivity|right; auto]| |]; clear KB KN KP; cbn [run_call] in D1, D2.
    - apply obind_ok in D1. destruct D1 as ([((a1, e1), v1)|] & E1 & D1); [|discriminate D1]. apply obind_ok in D2. destruct D2 as ([((a2, e2), v2)|] & E2 & D2); [|discriminate D2]. cbn [option_map] in D1, D2. apply Ok_inj in D1. apply Ok_inj in D2. injection D1 as <- <-. injection D2 as <- <-.
      destruct (stroke_twin _ _ _ _ _ _ _ _ _ _ _ _ H Cl Hw E1 E2) as (_ & A & B & C). split; [exact A|]. split; [rewrite C; exact Cl|exact B].
    - apply Ok_inj in D1. apply Ok_inj in D2. injection D1 as <- <-. injection D2 as <- <-. split; [apply twin_reset; exact H|]. split; [exact Cl|exact Hw].
    - apply Ok_inj in D1. apply Ok_inj in D2. injection D1 as <- <-. injection D2 as <- <-. split; [apply twin_times; exact H|]. split; [exact Cl|exact Hw].
    - unfold set_state in *. destruct (_ && _); [|discriminate D1]. cbn [obind] in *. apply Ok_inj in D1. apply Ok_inj in D2. injection D1 as <- <-. injection D2 as <- <-. split; [apply twin_put; exact H|]. split; [exact Cl|exact Hw].
    - unfold set_bucket_state in *. assert (b_buckets b2 = b_buckets b1 /\ b_nbuckets b2 = b_nbuckets b1 /\ b_minb b2 = b_minb b1 /\ b_maxb b2 = b_maxb b1) as (Q1 & Q2 & Q3 & Q4) by (rewrite (tw_form _ _ H); repeat split; reflexivity). rewrite Q1, Q2, Q3, Q4 in D2.
      destruct (i <? b_nbuckets b1).
      + destruct (b_buckets b1) as [mem|]; [|discriminate D1]. destruct (write9 mem i k) as [mem'| |]; [|discriminate D1|discriminate D1]. cbn [obind] in *. apply Ok_inj in D1. apply Ok_inj in D2. injection D1 as <- <-. injection D2 as <- <-. split; [apply twin_buckets; exact H|]. split; [exact Cl|exact Hw].
      + cbn [obind] in *. apply Ok_inj in D1. apply Ok_inj in D2. injection D1 as <- <-. injection D2 as <- <-. auto.
  Qed.
End Recolour.
