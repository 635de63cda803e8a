(** The brush engine run twice, with the same brush on two surfaces that answer
    alike.  A brush that does not smudge never asks a surface for a colour, so
    both runs are the same. *)
From Verif Require Import Base F32 Arith Color Mapping Settings Spectral Brush BrushProofs ShiftOffsets RecolourProofs.
Local Open Scope Z_scope.

Section Under.
  Context {M : mixed} (L : mathlib M) {E : env M}.
  Notation brush := (brush E).
  Hypothesis zero_off : off (M := M) (nofZ 0).
  Variable Rs : e_surf E -> e_surf E -> Prop.
  Hypothesis HD : forall s1 s2 d p s1', Rs s1 s2 -> e_draw E s1 d = Ok (p, s1') -> exists s2', e_draw E s2 d = Ok (p, s2') /\ Rs s1' s2'.
  Definition under (w1 w2 : world E) : Prop := Rs (w_surf w1) (w_surf w2).

  Lemma draw_under : forall (b : brush) w1 w2 lin r b' w1', dry b -> under w1 w2 -> prepare_and_draw_dab L b w1 lin = Ok (r, b', w1') ->
    exists w2', prepare_and_draw_dab L b w2 lin = Ok (r, b', w2') /\ under w1' w2' /\ b_settings b' = b_settings b.
  Proof.
    intros b w1 w2 lin r b' w1' ((Z1 & Z2) & Cs) Hw D1. unfold prepare_and_draw_dab in *. cbv zeta in *.
    destruct (dab_position L b) as [((x, y), c1)| |] eqn:E1; [|discriminate D1|discriminate D1]. destruct (position_twin L _ _ _ _ _ (twin_refl b) E1) as (_ & _ & _ & V2 & S2). cbn [obind] in *.
    destruct (dab_size L c1 _) as [((ra, op), k1)| |] eqn:E2; [|discriminate D1|discriminate D1]. destruct (size_twin L _ _ _ _ _ _ (twin_refl c1) E2) as (_ & _ & _ & V3 & S3). cbn [obind] in *.
    destruct (hsv_to_rgb _ _) as [col| |]; [|discriminate D1|discriminate D1]. cbn [obind] in *.
    assert (val k1 SET_SMUDGE = val b SET_SMUDGE) as Vs by (unfold val; rewrite V3, V2; reflexivity). assert (Brush.constant k1 SET_SMUDGE = true) as Cs' by (unfold Brush.constant in *; rewrite S3, S2; exact Cs).
    rewrite Vs, Cs', Z1 in *. cbn [negb orb] in *. rewrite andb_false_r in *. cbn [obind] in *. rewrite Z2 in *. cbn [obind] in *.
    destruct (dab_color L k1 col lin) as [h1| |]; [|discriminate D1|discriminate D1]. cbn [obind] in *.
    destruct (anti_alias _ _ _) as (ra1, ha1). destruct (snap_pixel _ _ _ _ _) as ((x1, y1), ra2). destruct h1 as ((hr1, hg1), hb1).
    apply obind_ok in D1. destruct D1 as ((p1, s1) & G1 & D1). destruct (HD _ _ _ _ _ Hw G1) as (s2 & G2 & R'). rewrite G2. cbn [obind]. apply Ok_inj in D1. injection D1 as <- <- <-.
    eexists. split; [reflexivity|]. split; [exact R'|]. rewrite S3. exact S2.
  Qed.

  Record beside (p1 p2 : progress E) : Prop := {
    be_brush : p_brush p2 = p_brush p1; be_clean : clean (b_settings (p_brush p1)); be_world : under (p_world p1) (p_world p2);
    be_painted : p_painted p2 = p_painted p1; be_left : p_left p2 = p_left p1; be_moved : p_moved p2 = p_moved p1; be_todo : p_todo p2 = p_todo p1 }.

  Lemma one_beside : forall g p1 p2 p1', beside p1 p2 -> one_dab L g p1 = Ok p1' -> exists p2', one_dab L g p2 = Ok p2' /\ beside p1' p2' /\ b_settings (p_brush p1') = b_settings (p_brush p1).
  Proof.
    intros g p1 p2 p1' [Eb St Hw Ep El Em Et] D1. unfold one_dab in *. cbv zeta in *. rewrite Em, Et, El, Ep, Eb.
    destruct (if nlt _ _ then _ else _) as (ddab, moved).
    apply obind_ok in D1. destruct D1 as (c1 & E1 & D1). rewrite E1. cbn [obind]. destruct (update_twin L zero_off _ _ _ _ _ (twin_refl _) St E1 E1) as (_ & S2 & Dr).
    apply obind_ok in D1. destruct D1 as (((pn1, c3), w3) & E3 & D1). destruct (draw_under (set_st c1 STATE_FLIP _) _ _ _ _ _ _ Dr Hw E3) as (w4 & E4 & W4 & S4). rewrite E4. cbn [obind].
    destruct (e_next E (b_rng c3)) as [(rr, rg)| |]; [|discriminate D1|discriminate D1]. cbn [obind] in *.
    destruct (count_dabs_to L (with_random (with_rng c3 rg) rr) _ _ _) as (n, c5) eqn:E5. pose proof (os_settings _ _ (count_os L _ _ _ _ _ _ E5)) as S6.
    apply Ok_inj in D1. subst p1'. assert (b_settings c5 = b_settings (p_brush p1)) as S5 by (rewrite S6; cbn [with_random with_rng b_settings]; rewrite S4; exact S2).
    eexists. split; [reflexivity|]. split; [|exact S5]. split; try reflexivity; [|exact W4]. cbn [p_brush]. rewrite S5. exact St.
  Qed.
  Lemma dabs_beside : forall n g p1 p2 r, beside p1 p2 -> dabs L n g p1 = Ok r ->
    match r with None => dabs L n g p2 = Ok None | Some p1' => exists p2', dabs L n g p2 = Ok (Some p2') /\ beside p1' p2' /\ b_settings (p_brush p1') = b_settings (p_brush p1) end.
  Proof.
    induction n as [|n IH]; intros g p1 p2 r A D1; cbn [dabs] in *; (assert (pending p2 = pending p1) as Q by (unfold pending; rewrite (be_moved _ _ A), (be_todo _ _ A); reflexivity)); rewrite Q; destruct (pending p1).
    - apply Ok_inj in D1. subst r. reflexivity.
    - apply Ok_inj in D1. subst r. exists p2. auto.
    - apply obind_ok in D1. destruct D1 as (q1 & E1 & D1). destruct (one_beside _ _ _ _ A E1) as (q2 & -> & A2 & S2). cbn [obind]. specialize (IH _ _ _ _ A2 D1). destruct r as [p1'|]; [|exact IH].
      destruct IH as (p2' & I1 & I2 & I3). exists p2'. split; [exact I1|]. split; [exact I2|]. rewrite I3. exact S2.
    - apply Ok_inj in D1. subst r. exists p2. auto.
  Qed.

  Definition answers (r1 r2 : option (bool * brush * world E)) (b : brush) : Prop :=
    match r1 with
    | None => r2 = None
    | Some (a, b', w1') => exists w2', r2 = Some (a, b', w2') /\ under w1' w2' /\ b_settings b' = b_settings b
    end.
  Lemma split_settings : forall (b : brush) pa pr dp dt, b_settings (snd (stroke_split b pa pr dp dt)) = b_settings b.
  Proof.
    intros. destruct (stroke_split b pa pr dp dt) as (a, b') eqn:E1. exact (proj2 (proj2 (split_twin _ _ _ _ _ _ _ _ _ _ (twin_refl b) E1 E1))).
  Qed.
  Lemma paint_under : forall n (b : brush) w1 w2 g dt r1, clean (b_settings b) -> under w1 w2 -> paint_to L n b w1 g dt = Ok r1 -> exists r2, paint_to L n b w2 g dt = Ok r2 /\ answers r1 r2 b.
  Proof.
    intros n b w1 w2 g dt r1 St Hw D1. unfold paint_to, paint_dabs in *. cbv zeta in *. destruct (count_dabs_to L b _ _ _) as (n0, c1) eqn:E1. pose proof (os_settings _ _ (count_os L _ _ _ _ _ _ E1)) as S2.
    apply obind_ok in D1. destruct D1 as (q & E2 & D1).
    assert (beside (mkProgress c1 w1 None dt (st b STATE_PARTIAL_DABS) n0 []) (mkProgress c1 w2 None dt (st b STATE_PARTIAL_DABS) n0 [])) as A by (split; try reflexivity; [cbn [p_brush]; rewrite S2; exact St|exact Hw]).
    pose proof (dabs_beside _ _ _ _ _ A E2) as K. destruct q as [q1|].
    2:{ rewrite K. cbn [obind]. apply Ok_inj in D1. subst r1. exists None. split; reflexivity. }
    destruct K as (q2 & -> & [Eb Cl Hw2 Ep El Em Et] & S3). cbn [obind p_brush] in *. unfold paint_rest, last_step in *. cbv zeta in *. rewrite Em, Et, El, Ep, Eb.
    apply obind_ok in D1. destruct D1 as ((a1, e1) & F1 & D1). rewrite F1. cbn [obind]. apply Ok_inj in D1. subst r1.
    apply obind_ok in F1. destruct F1 as (k1 & G1 & F1). apply Ok_inj in F1. destruct (update_twin L zero_off _ _ _ _ _ (twin_refl _) Cl G1 G1) as (_ & S4 & _).
    eexists. split; [reflexivity|]. exists (p_world q2). split; [reflexivity|]. split; [exact Hw2|].
    match type of F1 with stroke_split ?z ?u ?v ?t ?y = _ => pose proof (split_settings z u v t y) as S5 end. rewrite F1 in S5. cbn [snd] in S5. rewrite S5. change (b_settings k1 = b_settings b). rewrite S4, S3. exact S2.
  Qed.
  Lemma rest_under : forall n (b : brush) w1 w2 t e r1, clean (b_settings b) -> under w1 w2 -> stroke_rest L n b w1 t e = Ok r1 -> exists r2, stroke_rest L n b w2 t e = Ok r2 /\ answers r1 r2 b.
  Proof.
    intros n b w1 w2 t e r1 St Hw D1. unfold stroke_rest in *. destruct (skip_input L b (ev_x e) (ev_y e) (ev_dtime e)) as (d1, go) eqn:E1. destruct (skip_twin L _ _ _ _ _ _ _ (twin_refl b) E1) as (_ & _ & _ & S2). destruct go as [dt|].
    2:{ apply Ok_inj in D1. subst r1. eexists. split; [reflexivity|]. exists w2. auto. }
    destruct (track L d1 (ev_x e) (ev_y e) dt) as [((x, y), c1)| |] eqn:E2; [|discriminate D1|discriminate D1]. destruct (track_twin L _ _ _ _ _ _ _ _ (twin_refl d1) E2) as (_ & _ & _ & S3). cbn [obind] in *. destruct (_ || _).
    - destruct (do_reset c1 x y (ev_pressure e)) as [k1| |] eqn:E3; [|discriminate D1|discriminate D1]. destruct (reset_twin _ _ _ _ _ _ (twin_refl c1) E3) as (_ & _ & _ & S4). cbn [obind] in *. apply Ok_inj in D1. subst r1.
      eexists. split; [reflexivity|]. exists w2. split; [reflexivity|]. split; [exact Hw|]. rewrite S4, S3. exact S2.
    - assert (clean (b_settings c1)) as St3 by (rewrite S3, S2; exact St). destruct (paint_under _ _ _ _ _ _ _ St3 Hw D1) as (r2 & P & A). exists r2. split; [exact P|].
      unfold answers in *. destruct r1 as [((a, b'), w1')|]; [|exact A]. destruct A as (w2' & A1 & A2 & A3). exists w2'. split; [exact A1|]. split; [exact A2|]. rewrite A3, S3. exact S2.
  Qed.
  Theorem stroke_under : forall n (b : brush) w1 w2 e r1, clean (b_settings b) -> under w1 w2 -> stroke_to L n b w1 e = Ok r1 -> exists r2, stroke_to L n b w2 e = Ok r2 /\ answers r1 r2 b.
  Proof.
    intros n b w1 w2 e r1 St Hw D1. unfold stroke_to in *. destruct (sanitise L e) as [(t, e1)| |]; [|discriminate D1|discriminate D1]. cbn [obind] in *.
    destruct (_ && _ && _); [|exact (rest_under _ _ _ _ _ _ _ St Hw D1)].
    destruct (sanitise L (silent_event e1)) as [(t', e')| |]; [|discriminate D1|discriminate D1]. cbn [obind] in *.
    apply obind_ok in D1. destruct D1 as (q & E1 & D1). destruct (rest_under _ _ _ _ _ _ _ St Hw E1) as (q2 & -> & A). cbn [obind]. destruct q as [((a1, c1), v1)|].
    - destruct A as (v2 & -> & W2 & S2). assert (clean (b_settings c1)) as St2 by (rewrite S2; exact St). destruct (rest_under _ _ _ _ _ _ _ St2 W2 D1) as (r2 & P & A). exists r2. split; [exact P|].
      unfold answers in *. destruct r1 as [((a, b'), w1')|]; [|exact A]. destruct A as (w2' & A1 & A2 & A3). exists w2'. split; [exact A1|]. split; [exact A2|]. rewrite A3. exact S2.
    - cbn [answers] in A. subst q2. apply Ok_inj in D1. subst r1. exists None. split; reflexivity.
  Qed.

  (** *** Any call *)
  Lemma call_under : forall n (b : brush) w1 w2 c r1, clean (b_settings b) -> under w1 w2 -> no_smudge c -> run_call L n b w1 c = Ok r1 ->
    match r1 with
    | None => run_call L n b w2 c = Ok None
    | Some (b', w1') => exists w2', run_call L n b w2 c = Ok (Some (b', w2')) /\ under w1' w2' /\ clean (b_settings b')
    end.
  Proof.
    intros n b w1 w2 c r1 Cl Hw Ns D1.
    assert (forall m (x : outcome brush), no_smudge m -> run_call L n b w1 m = (let* b := x in Ok (Some (b, w1))) -> run_call L n b w2 m = (let* b := x in Ok (Some (b, w2))) -> run_call L n b w1 m = Ok r1 ->
      (forall b', x = Ok b' -> clean (b_settings b')) ->
      match r1 with None => run_call L n b w2 m = Ok None | Some (b', w1') => exists w2', run_call L n b w2 m = Ok (Some (b', w2')) /\ under w1' w2' /\ clean (b_settings b') end) as K.
    { intros m x _ Q1 Q2 D Hc. rewrite Q1 in D. apply obind_ok in D. destruct D as (b' & Ex & D). apply Ok_inj in D. subst r1. exists w2. rewrite Q2, Ex. split; [reflexivity|]. split; [exact Hw|exact (Hc b' Ex)]. }
    destruct c as [e| | |i v|i k m|i k m x y|i v|i k].
    - cbn [run_call] in *. apply obind_ok in D1. destruct D1 as (q & E1 & D1). destruct (stroke_under _ _ _ _ _ _ Cl Hw E1) as (q2 & -> & A). cbn [obind]. apply Ok_inj in D1. subst r1. destruct q as [((a, b'), w1')|]; cbn [option_map answers] in *.
      + destruct A as (w2' & -> & A & B). exists w2'. split; [reflexivity|]. split; [exact A|]. rewrite B. exact Cl.
      + subst q2. reflexivity.
    - cbn [run_call] in *. apply Ok_inj in D1. subst r1. exists w2. auto.
    - cbn [run_call] in *. apply Ok_inj in D1. subst r1. exists w2. auto.
    - refine (K _ (set_base_value L b i v) Ns eq_refl eq_refl D1 _). intros b' Q. unfold set_base_value in Q. apply obind_ok in Q. destruct Q as (m & _ & Q). apply Ok_inj in Q. subst b'. apply clean_edit; [exact Cl|exact Ns].
    - refine (K _ (set_mapping_n b i k m) Ns eq_refl eq_refl D1 _). intros b' Q. unfold set_mapping_n in Q. apply obind_ok in Q. destruct Q as (o & _ & Q). apply obind_ok in Q. destruct Q as (o' & _ & Q). apply Ok_inj in Q. subst b'. apply clean_edit; [exact Cl|exact Ns].
    - refine (K _ (set_mapping_point b i k m x y) Ns eq_refl eq_refl D1 _). intros b' Q. unfold set_mapping_point in Q. apply obind_ok in Q. destruct Q as (o & _ & Q). apply obind_ok in Q. destruct Q as (o' & _ & Q). apply Ok_inj in Q. subst b'. apply clean_edit; [exact Cl|exact Ns].
    - refine (K _ (set_state b i v) Ns eq_refl eq_refl D1 _). intros b' Q. unfold set_state in Q. destruct (_ && _); [|discriminate Q]. apply Ok_inj in Q. subst b'. exact Cl.
    - cbn [run_call] in *. unfold set_bucket_state in *. destruct (i <? b_nbuckets b).
      + destruct (b_buckets b) as [mem|]; [|discriminate D1]. destruct (write9 mem i k) as [mem'| |]; [|discriminate D1|discriminate D1]. cbn [obind] in *. apply Ok_inj in D1. subst r1. eexists. split; [reflexivity|]. split; [exact Hw|exact Cl].
      + cbn [obind] in *. apply Ok_inj in D1. subst r1. eexists. split; [reflexivity|]. split; [exact Hw|exact Cl].
  Qed.
End Under.
