(** The colour of the dabs of a brush that neither smudges nor changes its colour. *)
From Verif Require Import Base F32 Arith Color Mapping P_Mapping Settings Spectral Brush BrushProofs ReturnProofs.
Local Open Scope Z_scope.

Section Chosen.
  Context {M : mixed} (L : mathlib M) {E : env M}.
  Notation S := (car (sng M)).
  Notation brush := (brush E).
  Notation s z := (@nofZ (sng M) z).
  Notation d z := (@nofZ (dbl M) z).
  Context (HZ : forall v : S, neqb v (s 0) = true -> nlt (d 0) (wid v) = false).

  (** the second surface is what the first becomes by drawing dabs of the colour [c] *)
  Inductive dabs_of (c : color M) : e_surf E -> e_surf E -> Prop :=
  | no_dab : forall sf, dabs_of c sf sf
  | one_more : forall sf sf1 sf2 x r, dabs_of c sf sf1 -> (dab_r x, dab_g x, dab_b x) = c -> e_draw E sf1 x = Ok (r, sf2) -> dabs_of c sf sf2.
  Lemma dabs_trans : forall c a b x, dabs_of c a b -> dabs_of c b x -> dabs_of c a x.
  Proof. intros c a b x A B. induction B as [|sf sf1 sf2 y r B1 IH C D]; [exact A|]. exact (one_more c a sf1 sf2 y r (IH A) C D). Qed.

  Definition dynamics : list nat :=
    [SET_SMUDGE; SET_CHANGE_COLOR_H; SET_CHANGE_COLOR_HSV_S; SET_CHANGE_COLOR_V; SET_CHANGE_COLOR_L; SET_CHANGE_COLOR_HSL_S].
  Definition colored (c : color M) (b : brush) : Prop :=
    hsv_to_rgb M (base b SET_COLOR_H, base b SET_COLOR_S, base b SET_COLOR_V) = Ok c /\ Forall (off b) dynamics.
  Definition still (b : brush) : Prop := Forall (fun i => neqb (val b i) (s 0) = true) dynamics.

  Lemma colored_same : forall c (b b' : brush), b_settings b' = b_settings b -> colored c b -> colored c b'.
  Proof. intros c b b' Es [A B]. unfold colored, off, base, constant in *. rewrite Es. auto. Qed.
  Lemma still_same : forall b b' : brush, b_values b' = b_values b -> still b -> still b'.
  Proof. intros b b' Ev H. unfold still, val in *. rewrite Ev. exact H. Qed.

  Lemma update_still : forall c (b : brush) p b', colored c b -> update_states L b p = Ok b' -> b_settings b' = b_settings b /\ still b'.
  Proof.
    intros c b p b' (_ & Of) U. apply update_inv in U. destruct U as (vs' & Evs' & ->).
    pose proof (step_pen_os L b p) as O1.
    revert Evs' O1. generalize (step_inputs L (step_pen L b p)) as dat. generalize (step_pen L b p) as b1. intros b1 dat Evs' O1.
    pose proof (step_filters_os L (with_values b1 vs') p) as O2.
    revert O2. generalize (step_filters L (with_values b1 vs') p) as b2. intros b2 (O2 & _).
    assert (b_settings b2 = b_settings b1) as E2 by (rewrite O2; reflexivity). assert (b_values b2 = vs') as V2 by (rewrite O2; reflexivity).
    clear O2. split; [rewrite E2; exact (os_settings _ _ O1)|].
    assert (forall i, off b i -> neqb (nth i vs' (s 0)) (s 0) = true) as Q.
    { intros i (Ci & Zi). unfold constant, base in *. destruct (nth_error (b_settings b) i) as [m|] eqn:N.
      - pose proof (calc_nth _ _ _ _ _ Evs' N) as X. unfold mapping_calculate in X.
        unfold mapping_is_constant in Ci. rewrite Ci in X. injection X as <-. exact Zi.
      - apply nth_error_None in N. rewrite nth_overflow; [exact Zi|]. apply calculate_length in Evs'. rewrite Evs'. exact N. }
    unfold still, val. rewrite V2. eapply Forall_impl; [|exact Of]. exact Q.
  Qed.

  Lemma position_rng : forall (b : brush) x y b', dab_position L b = Ok (x, y, b') -> b_settings b' = b_settings b /\ b_values b' = b_values b.
  Proof.
    intros b x y b' H. unfold dab_position in H. cbv zeta in H. apply obind_ok in H. destruct H as (z & _ & H).
    destruct (truthy (val b SET_OFFSET_BY_RANDOM)).
    - apply obind_ok in H. destruct H as ((r1 & g1) & _ & H). apply obind_ok in H. destruct H as ((r2 & g2) & _ & H). injection H as _ _ <-. auto.
    - injection H as _ _ <-. auto.
  Qed.
  Lemma size_rng : forall (b : brush) o x y b', dab_size L b o = Ok (x, y, b') -> b_settings b' = b_settings b /\ b_values b' = b_values b.
  Proof.
    intros b o x y b' H. unfold dab_size in H. cbv zeta in H. destruct (truthy (val b SET_RADIUS_BY_RANDOM)).
    - apply obind_ok in H. destruct H as ((r1 & g1) & _ & H). injection H as _ _ <-. auto.
    - injection H as _ _ <-. auto.
  Qed.

  Lemma color_kept : forall (b : brush) c l, still b -> dab_color L b c l = Ok c.
  Proof.
    intros b c l Q. inversion Q as [|? ? _ Q1]; subst. inversion Q1 as [|? ? Qh Q2]; subst. inversion Q2 as [|? ? Qs Q3]; subst. inversion Q3 as [|? ? Qv Q4]; subst.
    inversion Q4 as [|? ? Ql Q5]; subst. inversion Q5 as [|? ? Qt _]; subst.
    unfold dab_color. cbv zeta. rewrite (not_truthy _ Qh), (not_truthy _ Qs), (not_truthy _ Qv), (not_truthy _ Ql), (not_truthy _ Qt).
    cbn [orb obind]. rewrite andb_false_r. reflexivity.
  Qed.

  Lemma prepare_color : forall c (b : brush) w l r b' w', colored c b -> still b -> prepare_and_draw_dab L b w l = Ok (r, b', w') ->
    b_settings b' = b_settings b /\ dabs_of c (w_surf w) (w_surf w').
  Proof.
    intros c b w l r b' w' P Q R. split. { apply prepare_frame in R. destruct R as (-> & _). reflexivity. }
    unfold prepare_and_draw_dab in R. cbv zeta in R. apply obind_ok in R. destruct R as (((x & y) & b1) & E1 & R). apply position_rng in E1.
    apply obind_ok in R. destruct R as (((rd & q) & b2) & E2 & R). apply size_rng in E2.
    assert (colored c b2 /\ still b2) as ((Ec & Of) & Q2).
    { destruct E1 as [A1 A2]. destruct E2 as [B1 B2]. split; [apply (colored_same c b); [congruence|auto]|apply (still_same b); [congruence|auto]]. }
    clear E1 E2 P Q b b1. rewrite Ec in R. cbn [obind] in R. inversion Of as [|? ? (Cs & _) _]; subst. inversion Q2 as [|? ? Qs _]; subst.
    rewrite (not_truthy _ Qs), Cs in R. cbn [orb negb andb] in R. rewrite andb_false_r in R. cbn [obind] in R. rewrite (HZ _ Qs) in R. cbn [obind] in R.
    rewrite (color_kept b2 c l Q2) in R. cbn [obind] in R. destruct (anti_alias _ _ _) as [rd' hd']. destruct (snap_pixel L x y rd' (val b2 SET_SNAP_TO_PIXEL)) as [[x' y'] rd''].
    destruct c as [[cr cg] cb]. apply obind_ok in R. destruct R as ((pn & sf) & Ed & R). injection R as _ _ <-. cbn [w_surf].
    eapply one_more; [apply no_dab| |exact Ed]. reflexivity.
  Qed.

  Lemma count_settings : forall (b : brush) x y t n b', count_dabs_to L b x y t = (n, b') -> b_settings b' = b_settings b.
  Proof. intros b x y t n b' H. apply count_os in H. apply os_settings in H. exact H. Qed.

  Definition went (c : color M) (b : brush) (w : world E) (b' : brush) (w' : world E) : Prop :=
    b_settings b' = b_settings b /\ dabs_of c (w_surf w) (w_surf w').
  Lemma went_trans : forall c b w b1 w1 b2 w2, went c b w b1 w1 -> went c b1 w1 b2 w2 -> went c b w b2 w2.
  Proof. intros c b w b1 w1 b2 w2 [A B] [C D]. split; [congruence|eapply dabs_trans; eauto]. Qed.
  Lemma went_colored : forall c b w b1 w1, went c b w b1 w1 -> colored c b -> colored c b1.
  Proof. intros c b w b1 w1 [A _] H. eapply colored_same; eauto. Qed.

  Lemma one_dab_color : forall c g p p', colored c (p_brush p) -> one_dab L g p = Ok p' -> went c (p_brush p) (p_world p) (p_brush p') (p_world p').
  Proof.
    intros c g p p' P O. unfold one_dab in O. cbv zeta in O.
    match type of O with (let '(_, _) := ?e in _) = _ => destruct e as [ddab moved] end.
    apply obind_ok in O. destruct O as (b1 & E1 & O). destruct (update_still c _ _ _ P E1) as [S1 Q1].
    apply obind_ok in O. destruct O as (((pn, b2), w2) & E2 & O).
    apply (prepare_color c) in E2; [|apply (colored_same c (p_brush p)); auto|exact Q1]. destruct E2 as [S2 D2].
    apply obind_ok in O. destruct O as ((r, rg) & _ & O).
    match type of O with context [count_dabs_to ?a ?b ?c ?d ?e] => destruct (count_dabs_to a b c d e) as [todo b3] eqn:E3 end.
    injection O as <-. cbn [p_brush p_world]. apply count_settings in E3. split; [|exact D2].
    rewrite E3. cbn [with_random with_rng b_settings]. rewrite S2. exact S1.
  Qed.
  Lemma dabs_color : forall c fuel g p p', colored c (p_brush p) -> dabs L fuel g p = Ok (Some p') -> went c (p_brush p) (p_world p) (p_brush p') (p_world p').
  Proof.
    intros c. induction fuel as [|fuel IH]; intros g p p' H O; cbn [dabs] in O; destruct (pending p); try discriminate.
    - injection O as <-. split; [reflexivity|apply no_dab].
    - apply obind_ok in O. destruct O as (p1 & E1 & O). apply (one_dab_color c) in E1; [|exact H].
      eapply went_trans; [exact E1|]. eapply IH; [|exact O]. eapply went_colored; eauto.
    - injection O as <-. split; [reflexivity|apply no_dab].
  Qed.
  Lemma split_settings : forall (b : brush) pt pr dp dt a b', stroke_split b pt pr dp dt = (a, b') -> b_settings b' = b_settings b.
  Proof.
    intros b pt pr dp dt a b' E0. unfold stroke_split in E0. cbv zeta in E0. revert E0.
    generalize (match pt with Some v => v | None => negb (nlt (nofZ 0) (b_idling b) || neqb (b_painting b) (nofZ 0)) end).
    intros [|] E0; [injection E0 as _ <-; reflexivity|]. match type of E0 with (if ?c then _ else _) = _ => destruct c end; injection E0 as _ <-; reflexivity.
  Qed.
  Lemma paint_to_color : forall c fuel (b : brush) w g dt a b' w', colored c b -> paint_to L fuel b w g dt = Ok (Some (a, b', w')) -> went c b w b' w'.
  Proof.
    intros c fuel b w g dt a b' w' H O. unfold paint_to in O. apply obind_ok in O. destruct O as ([p|] & E1 & O); [|discriminate].
    assert (went c b w (p_brush p) (p_world p)) as Hp.
    { unfold paint_dabs in E1. cbv zeta in E1. destruct (count_dabs_to _ _ _ _ _) as [todo b1] eqn:Ec. apply count_settings in Ec.
      apply (dabs_color c) in E1; [|eapply colored_same; eauto]. cbn [p_brush p_world] in E1. destruct E1 as [A B]. split; [congruence|exact B]. }
    pose proof (went_colored _ _ _ _ _ Hp H) as H1.
    apply obind_ok in O. destruct O as ((a', b1) & E2 & O). injection O as <- <- <-.
    unfold paint_rest in E2. apply obind_ok in E2. destruct E2 as (b2 & E2 & E3). cbv zeta in E3. injection E3 as E3.
    apply split_settings in E3. destruct (update_still c _ _ _ H1 E2) as [S2 _]. destruct Hp as [A B]. split; [|exact B].
    rewrite E3. change (b_settings (set_st b2 STATE_PARTIAL_DABS (nadd (p_moved p) (p_todo p)))) with (b_settings b2). congruence.
  Qed.
  Lemma do_reset_settings : forall (b : brush) x y pr b', do_reset b x y pr = Ok b' -> b_settings b' = b_settings b.
  Proof.
    intros b x y pr b' O. unfold do_reset in O. apply obind_ok in O. destruct O as (b1 & E1 & O).
    apply obind_ok in O. destruct O as ((r, g) & _ & O). cbv zeta in O. injection O as <-. cbn.
    unfold brush_reset in E1. cbv zeta in E1. cbn [with_states with_skip with_reset b_buckets b_minb b_maxb] in E1. destruct (b_buckets b) as [mem|].
    - destruct (negb _); [|apply Ok_inj in E1; subst b1; reflexivity]. apply obind_ok in E1. destruct E1 as (mem' & _ & E1). apply Ok_inj in E1. subst b1. reflexivity.
    - apply Ok_inj in E1. subst b1. reflexivity.
  Qed.
  Lemma stroke_rest_color : forall c fuel (b : brush) w t e a b' w', colored c b -> stroke_rest L fuel b w t e = Ok (Some (a, b', w')) -> went c b w b' w'.
  Proof.
    intros c fuel b w t e a b' w' H O. unfold stroke_rest in O. destruct (skip_input _ _ _ _ _) as [b1 go] eqn:E1. apply skip_fields in E1.
    assert (b_settings b1 = b_settings b) as H1 by (rewrite E1; reflexivity). clear E1. destruct go as [dt|]; [|injection O as _ <- <-; split; [exact H1|apply no_dab]].
    apply obind_ok in O. destruct O as (((x, y), b2) & E2 & O). apply track_fields in E2.
    assert (b_settings b2 = b_settings b) as H2 by (rewrite E2; exact H1). clear E2. match type of O with (if ?c then _ else _) = _ => destruct c end.
    - apply obind_ok in O. destruct O as (b3 & E3 & O). injection O as _ <- <-. apply do_reset_settings in E3. split; [congruence|apply no_dab].
    - apply (paint_to_color c) in O; [|eapply colored_same; eauto]. destruct O as [A B]. split; [congruence|exact B].
  Qed.
  Lemma stroke_to_color : forall c fuel (b : brush) w e a b' w', colored c b -> stroke_to L fuel b w e = Ok (Some (a, b', w')) -> went c b w b' w'.
  Proof.
    intros c fuel b w e a b' w' H O. unfold stroke_to in O. apply obind_ok in O. destruct O as ((t, e1) & _ & O).
    match type of O with (if ?c then _ else _) = _ => destruct c end; [|eapply stroke_rest_color; eauto].
    apply obind_ok in O. destruct O as ((t', e') & _ & O). apply obind_ok in O. destruct O as (r & E1 & O).
    destruct r as [((a1, b1), w1)|]; [|discriminate]. apply (stroke_rest_color c) in E1; auto.
    eapply went_trans; [exact E1|]. eapply stroke_rest_color; [|exact O]. eapply went_colored; eauto.
  Qed.
End Chosen.
