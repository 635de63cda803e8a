(** What one simulation step (update_states_and_setting_values) does to the
    states, as equations. *)
From Verif Require Import Base F32 Arith Color Mapping P_Mapping Settings Spectral Brush BrushProofs.
Local Open Scope Z_scope.

Section Step.
  Context {M : mixed} (L : mathlib M) {E : env M}.
  Notation S := (car (sng M)).
  Notation brush := (brush E).
  Notation s z := (@nofZ (sng M) z).
  Notation d z := (@nofZ (dbl M) z).

  Local Transparent step_pen step_filters.

  Lemma st_if_other : forall (c : bool) (b : brush) i j v, i <> j -> st (if c then set_st b i v else b) j = st b j.
  Proof. intros [] b i j v H; [apply st_set_other; auto|reflexivity]. Qed.
  Lemma has_if : forall (c : bool) (b : brush) i v, has_states b -> has_states (if c then set_st b i v else b).
  Proof. intros []; intros; auto. apply has_set; auto. Qed.

  Ltac known f0 := lazymatch goal with
    | |- ?P (pass ?e ?f) => apply (pass_eq P e f); let y := fresh "v" in let H := fresh "Eq" in intros y H; cbv beta;
        lazymatch type of y with
        | Brush.brush _ => let V := fresh "V" in
            assert (forall j, val y j = f0 j) as V;
            [ let j := fresh in intros j; rewrite H; unfold approach;
              repeat (match goal with |- val (if ?c then _ else _) _ = _ => destruct c end);
              match goal with
              | W : forall j, val ?x j = f0 j |- val (set_st ?x _ _) _ = _ => exact (W j)
              | W : forall j, val ?x j = f0 j |- val ?x _ = _ => exact (W j) end | ]
        | _ => idtac
        end end.
  Ltac hs := lazymatch goal with
    | |- has_states (set_st _ _ _) => apply has_set; hs
    | |- has_states (approach _ _ _ _) => apply has_set; hs
    | |- has_states (if ?c then set_st _ _ _ else if _ then _ else _) => destruct c; hs
    | |- has_states (if _ then set_st _ _ _ else ?b) => first [apply has_if; hs | match goal with |- has_states (if ?c then _ else _) => destruct c; hs end]
    | H : ?b = _ |- has_states ?b => rewrite H; clear H; hs
    | |- _ => assumption end.
  (* the value of state [j] of the brush variable [b], followed back *)
  Ltac back :=
    lazymatch goal with
    | |- st (set_st ?b ?i ?v) ?j = _ =>
        first [ rewrite (st_set_other b i j v) by discriminate; back | rewrite (st_set_same b i v); [| hs | vm_compute; lia] ]
    | |- st (approach ?b ?i ?t ?f) ?j = _ =>
        unfold approach at 1; back
    | |- st (if ?c then set_st ?b ?i ?v else ?b) ?j = _ => first [rewrite (st_if_other c b i j v) by discriminate; back | idtac]
    | |- st (if ?c then set_st ?b ?i ?v else if ?c2 then _ else _) ?j = _ =>
        transitivity (st b j); [destruct c; [|destruct c2]; rewrite st_set_other by discriminate; reflexivity|]; back
    | H : ?b = _ |- st ?b ?j = _ => rewrite H; back
    | |- _ => idtac end.

  Ltac done_ b :=
    repeat match goal with W : forall j, val ?x j = _ |- context [val ?x _] => rewrite W end;
    repeat match goal with |- context [st ?x ?j] => tryif constr_eq x b then fail else (let K := fresh in assert (st x j = st b j) as K by (back; reflexivity); rewrite K; clear K) end;
    try reflexivity.

  Definition filtered (b : brush) (p : step M) (b' : brush) : Prop :=
    let t := step_time (sp_dtime p) in
    let dx := nmul (sp_dx p) (st b STATE_VIEWZOOM) in
    let dy := nmul (sp_dy p) (st b STATE_VIEWZOOM) in
    let speed := hypotf_ L (norm_dx b p) (norm_dy b p) in
    let went i target fac := st b' i = nadd (st b i) (nmul (nsub target (st b i)) fac) in
    has_states b' /\
    Forall (fun i => st b' i = st b i) [STATE_X; STATE_Y; STATE_PARTIAL_DABS; STATE_PRESSURE; STATE_VIEWZOOM; STATE_FLIP; STATE_VIEWROTATION] /\
    (st b' STATE_DABS_PER_BASIC_RADIUS = val b SET_DABS_PER_BASIC_RADIUS /\
     st b' STATE_DABS_PER_ACTUAL_RADIUS = val b SET_DABS_PER_ACTUAL_RADIUS /\
     st b' STATE_DABS_PER_SECOND = val b SET_DABS_PER_SECOND /\
     st b' STATE_ACTUAL_ELLIPTICAL_DAB_RATIO = val b SET_ELLIPTICAL_DAB_RATIO) /\
    (went STATE_ACTUAL_X (st b STATE_X) (filter_fac L (val b SET_SLOW_TRACKING_PER_DAB) (sp_ddab p)) /\
     went STATE_ACTUAL_Y (st b STATE_Y) (filter_fac L (val b SET_SLOW_TRACKING_PER_DAB) (sp_ddab p))) /\
    (went STATE_NORM_SPEED1_SLOW speed (filter_fac L (val b SET_SPEED1_SLOWNESS) t) /\
     went STATE_NORM_SPEED2_SLOW speed (filter_fac L (val b SET_SPEED2_SLOWNESS) t)) /\
    (exists tc, went STATE_NORM_DX_SLOW (norm_dx b p) (filter_fac L tc t) /\ went STATE_NORM_DY_SLOW (norm_dy b p) (filter_fac L tc t)) /\
    (exists tc (o : bool), let fac := filter_fac L tc (hypotf_ L dx dy) in
       went STATE_DIRECTION_ANGLE_DX dx fac /\ went STATE_DIRECTION_ANGLE_DY dy fac /\
       went STATE_DIRECTION_DX (if o then negf_ L dx else dx) fac /\ went STATE_DIRECTION_DY (if o then negf_ L dy else dy) fac) /\
    went STATE_CUSTOM_INPUT (val b SET_CUSTOM_INPUT) (filter_fac L (val b SET_CUSTOM_INPUT_SLOWNESS) (nar (dec 1 10))).

  Lemma step_filters_facts : forall (b : brush) p, has_states b -> filtered b p (step_filters L b p).
  Proof.
    intros b p Hs. assert (exists f0, forall j, val b j = f0 j) as (f0 & V0) by (exists (val b); reflexivity).
    unfold step_filters. repeat known f0. cbv zeta beta. unfold filtered. cbv zeta. rewrite !V0.
    split; [hs|]. split; [repeat (apply Forall_cons; [back; reflexivity|]); apply Forall_nil|].
    split; [repeat split; back; done_ b|].
    split; [split; back; match goal with H : ?x = filter_fac L _ (sp_ddab p) |- _ => rewrite H end; done_ b|].
    assert (v2 = hypotf_ L (norm_dx b p) (norm_dy b p)) as E2 by (subst v2 v1 v0; reflexivity).
    split; [rewrite <- E2, <- Eq; split; back; done_ b|].
    split. { exists v14. rewrite <- Eq0, <- Eq1, <- Eq. match goal with H : ?x = filter_fac L v14 v |- _ => rewrite <- H end. split; back; done_ b. }
    assert (v18 = nmul (sp_dx p) (st b STATE_VIEWZOOM)) as E18 by (match goal with H : v18 = _ |- _ => rewrite H end; done_ b).
    assert (v19 = nmul (sp_dy p) (st b STATE_VIEWZOOM)) as E19 by (match goal with H : v19 = _ |- _ => rewrite H end; done_ b).
    split.
    { rewrite <- E18, <- E19. match goal with H : v20 = filter_fac L ?tc _ |- _ => exists tc, v25; rewrite <- H end.
      repeat match goal with H : v26 = _ |- _ => rewrite <- H end. repeat match goal with H : v27 = _ |- _ => rewrite <- H end.
      split; [|split; [|split]]; back; done_ b. }
    back; done_ b. 
  Qed.

  Definition clamped_radius (r : S) : S :=
    let r := if nlt (wid r) ACTUAL_RADIUS_MIN then nar ACTUAL_RADIUS_MIN else r in if nlt (s 1000) r then s 1000 else r.
  Lemma step_filters_radius : forall (b : brush) p, has_states b ->
    st (step_filters L b p) STATE_ACTUAL_RADIUS = clamped_radius (expf_ L (val b SET_RADIUS_LOGARITHMIC)).
  Proof.
    intros b p Hs. assert (exists f0, forall j, val b j = f0 j) as (f0 & V0) by (exists (val b); reflexivity).
    apply (proj2 (A := has_states (step_filters L b p))). change (at_ STATE_ACTUAL_RADIUS (clamped_radius (expf_ L (val b SET_RADIUS_LOGARITHMIC))) (step_filters L b p)).
    unfold step_filters. repeat known f0. rewrite V0. split; [hs|].
    assert (st v35 STATE_ACTUAL_RADIUS = expf_ L (f0 SET_RADIUS_LOGARITHMIC)) as A by (back; done_ b).
    assert (has_states v35) as H35 by hs.
    assert (st v36 STATE_ACTUAL_RADIUS = if nlt (wid (expf_ L (f0 SET_RADIUS_LOGARITHMIC))) ACTUAL_RADIUS_MIN then nar ACTUAL_RADIUS_MIN else expf_ L (f0 SET_RADIUS_LOGARITHMIC)) as B.
    { match goal with H : v36 = _ |- _ => rewrite H end. rewrite A. match goal with |- _ = (if ?c then _ else _) => destruct c end; [apply st_set_same; [exact H35|vm_compute; lia]|exact A]. }
    assert (has_states v36) as H36 by (match goal with H : v36 = _ |- _ => rewrite H end; apply has_if; exact H35).
    back. unfold clamped_radius. cbv zeta. rewrite B. match goal with |- _ = (if nlt (s 1000) ?x then _ else _) => destruct (nlt (s 1000) x) end; [apply st_set_same; [exact H36|vm_compute; lia]|exact B].
  Qed.

  (** *** the pen *)
  Definition moved_pen (b : brush) (p : step M) (b' : brush) : Prop :=
    has_states b' /\
    st b' STATE_X = nadd (st b STATE_X) (sp_dx p) /\ st b' STATE_Y = nadd (st b STATE_Y) (sp_dy p) /\
    st b' STATE_VIEWZOOM = sp_viewzoom p /\
    Forall (fun i => st b' i = st b i)
      [STATE_PARTIAL_DABS; STATE_FLIP; STATE_ACTUAL_X; STATE_ACTUAL_Y; STATE_NORM_SPEED1_SLOW; STATE_NORM_SPEED2_SLOW;
       STATE_NORM_DX_SLOW; STATE_NORM_DY_SLOW; STATE_DIRECTION_ANGLE_DX; STATE_DIRECTION_ANGLE_DY; STATE_DIRECTION_DX;
       STATE_DIRECTION_DY; STATE_CUSTOM_INPUT; STATE_ACTUAL_RADIUS] /\
    let pr := nadd (st b STATE_PRESSURE) (sp_dpressure p) in
    st b' STATE_PRESSURE = if nle (wid pr) (d 0) then s 0 else pr.
  Lemma step_pen_facts : forall (b : brush) p, has_states b -> moved_pen b p (step_pen L b p).
  Proof.
    intros b p Hs. assert (exists f0, forall j, val b j = f0 j) as (f0 & V0) by (exists (val b); reflexivity).
    unfold step_pen. repeat known f0. cbv beta.
    assert (moved_pen b p v19) as K.
    { assert (st v18 STATE_PRESSURE = nadd (st b STATE_PRESSURE) (sp_dpressure p)) as A by (back; done_ b).
      assert (has_states v18) as H18 by hs.
      split; [hs|]. split; [back; done_ b|]. split; [back; done_ b|]. split; [back; done_ b|].
      split; [repeat (apply Forall_cons; [back; reflexivity|]); apply Forall_nil|]. cbv zeta. rewrite <- A. match goal with H : v19 = _ |- _ => rewrite H end.
      match goal with |- _ = (if ?c then _ else _) => destruct c end; [apply st_set_same; [exact H18|vm_compute; lia]|reflexivity]. }
    clear - K. assert (forall c i v, moved_pen b p c -> i = STATE_STROKE_STARTED \/ i = STATE_STROKE -> moved_pen b p (set_st c i v)) as Set_.
    { clear. intros c i v (A & B & C & D & F & G) Hi.
      assert (forall j, j <> STATE_STROKE_STARTED -> j <> STATE_STROKE -> st (set_st c i v) j = st c j) as O.
      { intros j H1 H2. apply st_set_other. destruct Hi; congruence. }
      split; [apply has_set; auto|]. rewrite !O by discriminate. split; [exact B|]. split; [exact C|]. split; [exact D|]. split; [|exact G].
      repeat (apply Forall_cons; [rewrite O by discriminate; inversion F; subst; clear F; match goal with H : _ = _ |- _ => exact H end|inversion F as [|? ? _ F']; subst; clear F; rename F' into F]). apply Forall_nil. }
    destruct (_ && _); [apply Set_; auto|]. destruct (_ && _); [apply Set_; auto|exact K].
  Qed.
  Local Opaque step_pen step_filters.
  Lemma update_facts : forall (b : brush) p b', has_states b -> update_states L b p = Ok b' ->
    exists b1, moved_pen b p b1 /\ filtered b1 p b' /\
      st b' STATE_ACTUAL_RADIUS = clamped_radius (expf_ L (val b1 SET_RADIUS_LOGARITHMIC)) /\
      calculate_all (b_settings b) (step_inputs L (step_pen L b p)) = Ok (b_values b1) /\ b_settings b' = b_settings b /\ b_values b' = b_values b1.
  Proof.
    intros b p b' Hs U. apply update_inv in U. destruct U as (vs & Ev & ->). pose proof (step_pen_facts b p Hs) as A. pose proof (step_pen_os L b p) as O.
    revert A O Ev. generalize (step_inputs L (step_pen L b p)) as dat. generalize (step_pen L b p) as b0. intros b0 dat A O Ev.
    assert (moved_pen b p (with_values b0 vs)) as A' by exact A. assert (b_settings (with_values b0 vs) = b_settings b) as Es by exact (os_settings _ _ O).
    assert (b_values (with_values b0 vs) = vs) as Evs by reflexivity. revert A' Es Evs. generalize (with_values b0 vs) as b1. clear A O b0. intros b1 A Es Evs.
    exists b1. split; [exact A|]. split; [apply step_filters_facts; apply A|]. split; [apply step_filters_radius; apply A|]. rewrite Evs. split; [exact Ev|].
    pose proof (step_filters_os L b1 p) as [O _]. rewrite O. split; [exact Es|exact Evs].
  Qed.
End Step.
