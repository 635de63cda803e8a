(** What an event makes the surface do: the dabs it is asked to draw and where
    their radius and position come from. *)
From Verif Require Import Base F32 Arith Color Mapping P_Mapping Settings Spectral Brush BrushProofs StepFacts DabFrame.
Local Open Scope Z_scope.

Section Seen.
  Context {M : mixed} (L : mathlib M) {E : env M}.
  Notation brush := (brush E).
  Notation world := (world E).

  (** [drew s ds s']: the surface goes from [s] to [s'] by drawing exactly the dabs
      [ds] in this order; colours may be read in between *)
  Inductive drew : e_surf E -> list (dab M) -> e_surf E -> Prop :=
  | drew_none : forall s, drew s [] s
  | drew_get : forall s x y r paint c s1 ds s2, e_get E s x y r paint = Ok (c, s1) -> drew s1 ds s2 -> drew s ds s2
  | drew_dab : forall s d p s1 ds s2, e_draw E s d = Ok (p, s1) -> drew s1 ds s2 -> drew s (d :: ds) s2.

  Lemma drew_app : forall s ds s1 ds' s2, drew s ds s1 -> drew s1 ds' s2 -> drew s (ds ++ ds') s2.
  Proof. intros s ds s1 ds' s2 H. induction H as [|? ? ? ? ? ? ? ? ? G _ IH|? ? ? ? ? ? G _ IH]; intros H2; cbn [app]; [exact H2|eapply drew_get; [exact G|auto]|eapply drew_dab; [exact G|auto]]. Qed.

  (** how the radius and the position of a dab come about *)
  Definition made (b : brush) (d : dab M) : Prop :=
    exists x y b1 op r0 op' b2, dab_position L b = Ok (x, y, b1) /\ dab_size L b1 op = Ok (r0, op', b2) /\
      (dab_x d, dab_y d, dab_radius d) =
      snap_pixel L x y (fst (anti_alias r0 (clamp01 M (val b SET_HARDNESS)) (val b SET_ANTI_ALIASING))) (val b SET_SNAP_TO_PIXEL).

  Lemma position_rng : forall (b b1 : brush) x y, dab_position L b = Ok (x, y, b1) -> exists g, b1 = with_rng b g.
  Proof.
    intros b b1 x y E1. unfold dab_position in E1. cbv zeta in E1. apply obind_ok in E1. destruct E1 as (fl & _ & E1).
    destruct (truthy (val b SET_OFFSET_BY_RANDOM)).
    - apply obind_ok in E1. destruct E1 as ((r1, g1) & _ & E1). apply obind_ok in E1. destruct E1 as ((r2, g2) & _ & E1).
      injection E1 as _ _ <-. eauto.
    - injection E1 as _ _ <-. exists (b_rng b). destruct b; reflexivity.
  Qed.
  Lemma size_rng : forall (b b1 : brush) op r op', dab_size L b op = Ok (r, op', b1) -> exists g, b1 = with_rng b g.
  Proof.
    intros b b1 op r op' E2. unfold dab_size in E2. cbv zeta in E2. destruct (truthy (val b SET_RADIUS_BY_RANDOM)).
    - apply obind_ok in E2. destruct E2 as ((r1, g1) & _ & E2). injection E2 as _ _ <-. eauto.
    - injection E2 as _ _ <-. exists (b_rng b). destruct b; reflexivity.
  Qed.
  Lemma df_val : forall b b' : brush, dab_frame b b' -> forall i, val b' i = val b i.
  Proof. intros b b' (F & _) i. rewrite F. reflexivity. Qed.
  Lemma smudge_drew : forall (b : brush) w k sl px py r lg pt ea k' w', update_smudge_color L b w k sl px py r lg pt = Ok (ea, k', w') ->
    drew (w_surf w) [] (w_surf w').
  Proof.
    intros b w k sl px py r lg pt ea k' w' H. unfold update_smudge_color in H. cbv zeta in H. apply obind_ok in H. destruct H as ((((e1, k1), c1), w1) & E1 & H).
    assert (drew (w_surf w) [] (w_surf w1)) as D.
    { clear H. match type of E1 with (if ?c then _ else _) = _ => destruct c end.
      - apply obind_ok in E1. destruct E1 as ((c, sf) & Eg & E1). destruct c as [[[cr cg] cb] ca].
        match type of E1 with (if ?c then _ else _) = _ => destruct c end; injection E1 as _ _ _ <-; cbn [w_surf]; (eapply drew_get; [exact Eg|apply drew_none]).
      - injection E1 as _ _ _ <-. apply drew_none. }
    clear E1. destruct e1; [injection H as _ _ <-; exact D|]. destruct c1 as [[[cr cg] cb] ca]. destruct (bk_smudge k1) as [[[sr sg] sb] sa].
    destruct lg; [injection H as _ _ <-; exact D|]. match type of H with (if ?c then _ else _) = _ => destruct c end; injection H as _ _ <-; exact D.
  Qed.

  Lemma prepare_drew : forall (b : brush) w lin r b' w', prepare_and_draw_dab L b w lin = Ok (r, b', w') ->
    exists ds, drew (w_surf w) ds (w_surf w') /\ (ds = [] \/ exists d, ds = [d] /\ made b d).
  Proof.
    intros b w lin r b' w' H. unfold prepare_and_draw_dab in H. cbv zeta in H.
    apply obind_ok in H. destruct H as (((x, y), b1) & E1 & H).
    assert (F1 : dab_frame b b1) by (destruct (position_rng _ _ _ _ E1) as (g & ->); apply df_rng).
    apply obind_ok in H. destruct H as (((rad, op), b2) & E2 & H).
    assert (F2 : dab_frame b b2) by (eapply df_trans; [exact F1|]; destruct (size_rng _ _ _ _ _ E2) as (g & ->); apply df_rng).
    clear F1. apply obind_ok in H. destruct H as (c & _ & H).
    apply obind_ok in H. destruct H as (((early, b3), w3) & E3 & H).
    assert (F3 : dab_frame b b3 /\ drew (w_surf w) [] (w_surf w3)).
    { clear H. match type of E3 with (if ?c then _ else _) = _ => destruct c end.
      - apply obind_ok in E3. destruct E3 as ((pl, b4) & Ef & E3). apply obind_ok in E3. destruct E3 as (px & _ & E3).
        apply obind_ok in E3. destruct E3 as (py & _ & E3). apply obind_ok in E3. destruct E3 as (k & _ & E3).
        apply obind_ok in E3. destruct E3 as (((ea, k'), w4) & Es & E3). apply obind_ok in E3. destruct E3 as (b5 & Ew & E3).
        injection E3 as _ <- <-. split; [eapply df_trans; [exact F2|eapply df_trans; [eapply fetch_frame; eauto|eapply write_place_frame; eauto]]|].
        eapply smudge_drew; exact Es.
      - injection E3 as _ <- <-. split; [exact F2|apply drew_none]. }
    destruct F3 as (F3 & D3). clear F2 E3. destruct early. { injection H as _ _ <-. exists []. auto. }
    apply obind_ok in H. destruct H as ((((al, c'), b4), w4) & E4 & H).
    assert (F4 : dab_frame b b4 /\ w_surf w4 = w_surf w3).
    { clear H. match type of E4 with (if ?c then _ else _) = _ => destruct c end.
      - apply obind_ok in E4. destruct E4 as ((pl, b5) & Ef & E4). apply obind_ok in E4. destruct E4 as (k & _ & E4).
        destruct (apply_smudge _ _ _ _ _ _ _) as ((al', c''), w'') eqn:Ea. injection E4 as _ _ <- <-. split; [eapply df_trans; [exact F3|eapply fetch_frame; eauto]|].
        unfold apply_smudge in Ea. cbv zeta in Ea. destruct c as [[cr cg] cb]. destruct (bk_smudge k) as [[[sr sg] sb] sa].
        match type of Ea with (if ?q then _ else _) = _ => destruct q end; [|injection Ea as _ _ <-; reflexivity].
        match type of Ea with (if ?q then _ else _) = _ => destruct q end; [injection Ea as _ _ <-; reflexivity|].
        match type of Ea with context [mix_colors ?m ?a ?b ?c ?d ?e ?f] => destruct (mix_colors m a b c d e f) as [[[mr mg] mb] ma] end. injection Ea as _ _ <-. reflexivity.
      - injection E4 as _ _ <- <-. split; [exact F3|reflexivity]. }
    destruct F4 as (F4 & W4). clear F3 E4. apply obind_ok in H. destruct H as (c'' & _ & H).
    destruct (anti_alias _ _ _) as [ra ha] eqn:Eaa. destruct (snap_pixel _ _ _ _ _) as [[xx yy] rr] eqn:Esn. destruct c'' as [[cr cg] cb].
    apply obind_ok in H. destruct H as ((pt, sf) & Ed & H). injection H as _ _ <-. cbn [w_surf].
    rewrite W4 in Ed. eexists. split; [exact (drew_app _ _ _ _ _ D3 (drew_dab _ _ _ _ _ _ Ed (drew_none _)))|].
    right. eexists. split; [reflexivity|]. exists x, y, b1. eexists _, rad, op, b2. split; [exact E1|]. split; [exact E2|].
    cbn [dab_x dab_y dab_radius]. rewrite <- (df_val _ _ F4 SET_HARDNESS), <- (df_val _ _ F4 SET_ANTI_ALIASING), <- (df_val _ _ F4 SET_SNAP_TO_PIXEL).
    rewrite Eaa. cbn [fst]. symmetry. exact Esn.
  Qed.

  (** the brush a dab is made with: the one after the simulation step, FLIP turned *)
  Definition flipped (b : brush) : brush := set_st b STATE_FLIP (nmul (st b STATE_FLIP) (nofZ (-1))).
  (** a brush after a simulation step *)
  Definition stepped (ms : list (mapping (sng M))) (b1 : brush) : Prop :=
    exists b0 sp, shape b0 /\ b_settings b0 = ms /\ update_states L b0 sp = Ok b1.

  Lemma one_dab_drew : forall g (p p' : progress E), shape (p_brush p) -> one_dab L g p = Ok p' ->
    exists sp b1 ds, p_log p' = (sp, b1) :: p_log p /\ stepped (b_settings (p_brush p)) b1 /\
      drew (w_surf (p_world p)) ds (w_surf (p_world p')) /\ Forall (made (flipped b1)) ds.
  Proof.
    intros g p p' Sh O. unfold one_dab in O. cbv zeta in O. match type of O with (let '(_, _) := ?e in _) = _ => destruct e as [ddab moved] end.
    apply obind_ok in O. destruct O as (b1 & E1 & O). apply obind_ok in O. destruct O as (((pn, b2), w2) & E2 & O).
    apply obind_ok in O. destruct O as ((r, rg) & _ & O).
    match type of O with context [count_dabs_to ?a ?b ?c ?d ?e] => destruct (count_dabs_to a b c d e) as [todo b3] end.
    apply Ok_inj in O. apply prepare_drew in E2. destruct E2 as (ds & D & Hd).
    eexists _, b1, ds. rewrite <- O. cbn [p_log p_world]. split; [reflexivity|]. split; [eexists _, _; eauto|]. split; [exact D|].
    destruct Hd as [->|(d & -> & Hd)]; [constructor|]. constructor; [exact Hd|constructor].
  Qed.
  Lemma dabs_drew : forall n g (p p' : progress E), shape (p_brush p) -> dabs L n g p = Ok (Some p') ->
    exists l ds, p_log p' = l ++ p_log p /\ Forall (fun e => stepped (b_settings (p_brush p)) (snd e)) l /\
      drew (w_surf (p_world p)) ds (w_surf (p_world p')) /\ Forall (fun d => exists e, In e l /\ made (flipped (snd e)) d) ds.
  Proof.
    induction n as [|n IH]; intros g p p' Sh H; cbn [dabs] in H; destruct (pending p) eqn:Pe; try discriminate H;
      try (apply Ok_inj in H; injection H as <-; exists [], []; split; [reflexivity|]; split; [constructor|]; split; [apply drew_none|constructor]).
    apply obind_ok in H. destruct H as (p1 & E1 & H). destruct (one_dab_drew _ _ _ Sh E1) as (sp & b1 & ds1 & L1 & S1 & D1 & M1).
    pose proof (one_dab_shape L _ _ _ Sh E1) as Sh1. apply one_dab_frame in E1.
    assert (b_settings (p_brush p1) = b_settings (p_brush p)) as Es by (rewrite E1; reflexivity).
    destruct (IH _ _ _ Sh1 H) as (l & ds & L2 & S2 & D2 & M2). rewrite Es in S2.
    exists (l ++ [(sp, b1)]), (ds1 ++ ds). split; [rewrite L2, L1, <- app_assoc; reflexivity|].
    split; [apply Forall_app; split; [exact S2|constructor; [exact S1|constructor]]|]. split; [eapply drew_app; eauto|].
    apply Forall_app. split.
    - eapply Forall_impl; [|exact M1]. intros d Hd. exists (sp, b1). split; [apply in_or_app; right; left; reflexivity|exact Hd].
    - eapply Forall_impl; [|exact M2]. intros d (e & I & Hd). exists e. split; [apply in_or_app; left; exact I|exact Hd].
  Qed.
  Lemma paint_dabs_drew : forall n (b : brush) w g t p, shape b -> paint_dabs L n b w g t = Ok (Some p) ->
    exists ds, Forall (fun e => stepped (b_settings b) (snd e)) (p_log p) /\
      drew (w_surf w) ds (w_surf (p_world p)) /\ Forall (fun d => exists e, In e (p_log p) /\ made (flipped (snd e)) d) ds.
  Proof.
    intros n b w g t p Sh H. unfold paint_dabs in H. cbv zeta in H. destruct (count_dabs_to _ _ _ _ _) as [todo b1] eqn:Ec.
    apply count_os in Ec. pose proof (shape_os _ _ Ec Sh) as Sh1. destruct Ec as [Ec _].
    edestruct dabs_drew as (l & ds & L1 & S1 & D1 & M1); [|exact H|]; [exact Sh1|]. cbn [p_log p_brush p_world] in *. rewrite app_nil_r in L1. subst l.
    assert (b_settings b1 = b_settings b) as Es by (rewrite Ec; reflexivity). rewrite Es in S1. exists ds. auto.
  Qed.

  Lemma reset_settings : forall (b b' : brush) x y p, do_reset b x y p = Ok b' -> b_settings b' = b_settings b.
  Proof.
    intros b b' x y p H. unfold do_reset in H. apply obind_ok in H. destruct H as (b1 & E1 & H). apply obind_ok in H. destruct H as ((r, g) & _ & H).
    cbv zeta in H. apply Ok_inj in H. assert (b_settings b' = b_settings b1) as -> by (rewrite <- H; reflexivity).
    unfold brush_reset in E1. cbv zeta in E1. cbn [with_states with_skip with_reset b_buckets] in E1. destruct (b_buckets b) as [mem|].
    - match type of E1 with (if ?c then _ else _) = _ => destruct c end; [apply obind_ok in E1; destruct E1 as (m & _ & E1)|]; apply Ok_inj in E1; rewrite <- E1; reflexivity.
    - apply Ok_inj in E1. rewrite <- E1. reflexivity.
  Qed.
  Lemma rest_drew : forall n (b : brush) w t e a b' w', shape b -> stroke_rest L n b w t e = Ok (Some (a, b', w')) ->
    b_settings b' = b_settings b /\
    exists ds, drew (w_surf w) ds (w_surf w') /\ Forall (fun d => exists b1, stepped (b_settings b) b1 /\ made (flipped b1) d) ds.
  Proof.
    intros n b w t e a b' w' Sh O. unfold stroke_rest in O. destruct (skip_input _ _ _ _ _) as [b1 go] eqn:E1. apply skip_fields in E1.
    assert (shape b1 /\ b_settings b1 = b_settings b) as (Sh1 & Es1) by (rewrite E1; split; [exact Sh|reflexivity]). clear E1.
    destruct go as [dt|]; [|apply Ok_inj in O; injection O as _ <- <-; split; [exact Es1|exists []; split; [apply drew_none|constructor]]].
    apply obind_ok in O. destruct O as (((x, y), b2) & E2 & O). apply track_fields in E2.
    assert (shape b2 /\ b_settings b2 = b_settings b) as (Sh2 & Es2) by (rewrite E2; split; [exact Sh1|exact Es1]). clear E2.
    match type of O with (if ?c then _ else _) = _ => destruct c end.
    - apply obind_ok in O. destruct O as (b3 & E3 & O). apply Ok_inj in O. injection O as _ <- <-. apply reset_settings in E3.
      split; [congruence|]. exists []. split; [apply drew_none|constructor].
    - unfold paint_to in O. apply obind_ok in O. destruct O as ([p|] & E3 & O); [|discriminate O]. apply obind_ok in O. destruct O as ((a', b3) & E4 & O).
      apply Ok_inj in O. injection O as _ <- <-. pose proof (paint_dabs_frame L _ _ _ _ _ _ E3) as F1. destruct (paint_rest_frame L _ _ _ _ _ E4) as (u & v & F2).
      split; [rewrite F2; cbn [b_settings with_times]; rewrite F1; exact Es2|].
      destruct (paint_dabs_drew _ _ _ _ _ _ Sh2 E3) as (ds & S3 & D3 & M3). exists ds. split; [exact D3|]. rewrite Es2 in S3.
      eapply Forall_impl; [|exact M3]. intros d (q & I & Hd). rewrite Forall_forall in S3. eauto.
  Qed.
  Theorem stroke_drew : forall n (b : brush) w e a b' w', shape b -> stroke_to L n b w e = Ok (Some (a, b', w')) ->
    exists ds, drew (w_surf w) ds (w_surf w') /\ Forall (fun d => exists b1, stepped (b_settings b) b1 /\ made (flipped b1) d) ds.
  Proof.
    intros n b w e a b' w' Sh Er. unfold stroke_to in Er. apply obind_ok in Er. destruct Er as ((t, e1) & _ & Er).
    match type of Er with (if ?c then _ else _) = _ => destruct c end; [|eapply rest_drew; eauto].
    apply obind_ok in Er. destruct Er as ((t2, e2) & _ & Er). apply obind_ok in Er. destruct Er as (r2 & Er2 & Er). destruct r2 as [((a3, b3), w3)|]; [|discriminate Er].
    destruct (rest_drew _ _ _ _ _ _ _ _ Sh Er2) as (Es & ds1 & D1 & M1). pose proof (stroke_rest_shape L _ _ _ _ _ _ _ _ Sh Er2) as Sh3.
    destruct (rest_drew _ _ _ _ _ _ _ _ Sh3 Er) as (_ & ds2 & D2 & M2). rewrite Es in M2. exists (ds1 ++ ds2). split; [eapply drew_app; eauto|]. apply Forall_app. auto.
  Qed.
End Seen.
