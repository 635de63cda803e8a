(** More of what one simulation step does: the rotation of the view, the angle of
    the dab, and the first two inputs of the dynamics. *)
From Verif Require Import Base F32 Arith Color Mapping P_Mapping Settings Spectral Brush BrushProofs StepFacts.
Local Open Scope Z_scope.

Section Step.
  Context {M : mixed} (L : mathlib M) {E : env M}.
  Notation S := (car (sng M)).
  Notation brush := (brush E).
  Notation s z := (@nofZ (sng M) z).
  Notation d z := (@nofZ (dbl M) z).

  Local Transparent step_pen step_filters.

  Ltac known f0 := lazymatch goal with
    | |- ?P (pass ?e ?f) => apply (pass_eq P e f); let y := fresh "v" in let H := fresh "Eq" in intros y H; cbv beta;
        lazymatch type of y with
        | Brush.brush _ => let V := fresh "V" in
            assert (forall j, val y j = f0 j) as V;
            [ let j := fresh in intros j; rewrite H; unfold approach;
              repeat (match goal with |- val (if ?c then _ else _) _ = _ => destruct c end);
              match goal with
              | W : forall j, val ?x j = f0 j |- val (set_st ?x _ _) _ = _ => exact (W j)
              | W : forall j, val ?x j = f0 j |- val ?x _ = _ => exact (W j) end | ]
        | _ => idtac
        end end.
  Ltac hs := lazymatch goal with
    | |- has_states (set_st _ _ _) => apply has_set; hs
    | |- has_states (approach _ _ _ _) => apply has_set; hs
    | |- has_states (if ?c then set_st _ _ _ else if _ then _ else _) => destruct c; hs
    | |- has_states (if _ then set_st _ _ _ else ?b) => first [apply StepFacts.has_if; hs | match goal with |- has_states (if ?c then _ else _) => destruct c; hs end]
    | H : ?b = _ |- has_states ?b => rewrite H; clear H; hs
    | |- _ => assumption end.
  (* the value of state [j] of the brush variable [b], followed back *)
  Ltac back :=
    lazymatch goal with
    | |- st (set_st ?b ?i ?v) ?j = _ =>
        first [ rewrite (st_set_other b i j v) by discriminate; back | rewrite (st_set_same b i v); [| hs | vm_compute; lia] ]
    | |- st (approach ?b ?i ?t ?f) ?j = _ =>
        unfold approach at 1; back
    | |- st (if ?c then set_st ?b ?i ?v else ?b) ?j = _ => first [rewrite (StepFacts.st_if_other c b i j v) by discriminate; back | idtac]
    | |- st (if ?c then set_st ?b ?i ?v else if ?c2 then _ else _) ?j = _ =>
        transitivity (st b j); [destruct c; [|destruct c2]; rewrite st_set_other by discriminate; reflexivity|]; back
    | H : ?b = _ |- st ?b ?j = _ => rewrite H; back
    | |- _ => idtac end.

  Ltac done_ b :=
    repeat match goal with W : forall j, val ?x j = _ |- context [val ?x _] => rewrite W end;
    repeat match goal with |- context [st ?x ?j] => tryif constr_eq x b then fail else (let K := fresh in assert (st x j = st b j) as K by (back; reflexivity); rewrite K; clear K) end;
    try reflexivity.


  (** the view rotation in degrees and the angle of the dab, mypaint-brush.c 727, 902 *)
  Definition rotation (v : S) : S := nar (nsub (wid (mod_arith M (nar (nadd (degrees L (wid v)) (d 180))) (s 360))) (d 180)).
  Definition tilted (a r : S) : S := nar (nsub (wid (mod_arith M (nar (nadd (wid (nsub a r)) (d 180))) (s 180))) (d 180)).

  Lemma filters_angle : forall (b : brush) p, has_states b ->
    st (step_filters L b p) STATE_ACTUAL_ELLIPTICAL_DAB_ANGLE = tilted (val b SET_ELLIPTICAL_DAB_ANGLE) (st b STATE_VIEWROTATION).
  Proof.
    intros b p Hs. assert (exists f0, forall j, val b j = f0 j) as (f0 & V0) by (exists (val b); reflexivity).
    apply (proj2 (A := has_states (step_filters L b p))). change (at_ STATE_ACTUAL_ELLIPTICAL_DAB_ANGLE (tilted (val b SET_ELLIPTICAL_DAB_ANGLE) (st b STATE_VIEWROTATION)) (step_filters L b p)).
    unfold step_filters. repeat known f0. rewrite V0. split; [hs|]. back. unfold tilted. rewrite <- Eq4. done_ b.
  Qed.
  Lemma pen_rotation : forall (b : brush) p, has_states b -> at_ STATE_VIEWROTATION (rotation (sp_viewrotation p)) (step_pen L b p).
  Proof.
    intros b p Hs. assert (exists f0, forall j, val b j = f0 j) as (f0 & V0) by (exists (val b); reflexivity).
    unfold step_pen. repeat known f0. cbv beta.
    assert (at_ STATE_VIEWROTATION (rotation (sp_viewrotation p)) v19) as K.
    { split; [hs|]. back. unfold rotation. match goal with H : ?x = _ |- ?x = _ => exact H end. }
    clear - K. destruct (_ && _); [|destruct (_ && _)]; [apply at_other; [discriminate|apply at_other; [discriminate|exact K]]|apply at_other; [discriminate|exact K]|exact K].
  Qed.

  Lemma inputs_first : forall b : brush, nth 0 (step_inputs L b) (s 0) = nmul (st b STATE_PRESSURE) (expf_ L (base b SET_PRESSURE_GAIN_LOG)).
  Proof. reflexivity. Qed.
  Lemma inputs_second : forall b : brush, nth 1 (step_inputs L b) (s 0) = nar (b_random b).
  Proof. reflexivity. Qed.
  Local Opaque step_pen step_filters step_inputs.

  Lemma update_more : forall (b : brush) p b', has_states b -> update_states L b p = Ok b' ->
    st b' STATE_ACTUAL_ELLIPTICAL_DAB_ANGLE = tilted (val b' SET_ELLIPTICAL_DAB_ANGLE) (rotation (sp_viewrotation p)) /\
    st b' STATE_ACTUAL_RADIUS = clamped_radius (expf_ L (val b' SET_RADIUS_LOGARITHMIC)) /\
    b_settings b' = b_settings b /\ b_random b' = b_random b /\
    exists inputs, length inputs = INPUTS_COUNT /\ calculate_all (b_settings b) inputs = Ok (b_values b') /\
      nth 0 inputs (s 0) = nmul (st b' STATE_PRESSURE) (expf_ L (base b SET_PRESSURE_GAIN_LOG)) /\
      nth 1 inputs (s 0) = nar (b_random b).
  Proof.
    intros b p b' Hs U. apply update_inv in U. destruct U as (vs & Ev & ->). destruct (pen_rotation b p Hs) as (Hs1 & Rt). pose proof (step_pen_os L b p) as O1.
    pose proof (step_filters_os L (with_values (step_pen L b p) vs) p) as O2. pose proof (filters_angle (with_values (step_pen L b p) vs) p Hs1) as An.
    pose proof (step_filters_facts L (with_values (step_pen L b p) vs) p Hs1) as (_ & Keep & _).
    pose proof (step_filters_radius L (with_values (step_pen L b p) vs) p Hs1) as Ra.
    pose proof (inputs_first (step_pen L b p)) as I0. pose proof (inputs_second (step_pen L b p)) as I1.
    assert (length (step_inputs L (step_pen L b p)) = INPUTS_COUNT) as IL by reflexivity.
    assert (forall j, base (step_pen L b p) j = base b j) as Bs by (intros j; unfold base; rewrite (os_settings b) by exact O1; reflexivity).
    assert (b_random (step_pen L b p) = b_random b) as Rn by (destruct O1 as (-> & _); reflexivity).
    revert Hs1 Rt O1 O2 An Keep Ra I0 I1 IL Ev Bs Rn. generalize (step_inputs L (step_pen L b p)) as dat. generalize (step_filters L (with_values (step_pen L b p) vs) p) as b2.
    generalize (step_pen L b p) as b1. intros b1 b2 dat Hs1 Rt O1 (O2 & _) An Keep Ra I0 I1 IL Ev Bs Rn.
    assert (b_values b2 = vs) as V2 by (rewrite O2; reflexivity).
    assert (forall j, val b2 j = val (with_values b1 vs) j) as Vv by (intros j; unfold val; rewrite V2; reflexivity).
    change (st (with_values b1 vs)) with (st b1) in An, Keep. rewrite <- !Vv in An, Ra. rewrite Rt in An. rewrite Bs in I0. rewrite Rn in I1.
    assert (st b2 STATE_PRESSURE = st b1 STATE_PRESSURE) as Ep by (inversion Keep as [|? ? _ K1]; subst; inversion K1 as [|? ? _ K2]; subst; inversion K2 as [|? ? _ K3]; subst; inversion K3 as [|? ? K4 _]; subst; exact K4).
    split; [exact An|]. split; [exact Ra|]. split; [rewrite O2; exact (os_settings _ _ O1)|]. split; [rewrite O2; exact Rn|].
    exists dat. split; [exact IL|]. rewrite V2. split; [exact Ev|]. rewrite Ep. split; [exact I0|exact I1].
  Qed.
End Step.
