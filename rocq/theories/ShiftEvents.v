(** Whole events: the engine in exact arithmetic, run twice, the second time with
    every event moved by a whole number of pixels. *)
From Verif Require Import Base F32 F32Proofs Arith Color Mapping Settings Spectral Brush BrushProofs P_Reset ShiftProofs.
From Coq Require Import Reals Lra.
From Flocq Require Import Core.Core.
Local Open Scope Z_scope.

Section Events.
  Context (L : mathlib mixR) {E : env mixR} (a c : Z).
  Notation brush := (brush E).
  Notation alike := (@alike E a c).
  Variable Rs : e_surf E -> e_surf E -> Prop.
  Hypothesis HD : forall s1 s2 d p s1', Rs s1 s2 -> e_draw E s1 d = Ok (p, s1') -> exists s2', e_draw E s2 (move_dab a c d) = Ok (p, s2') /\ Rs s1' s2'.
  Hypothesis HF : forall v : sng mixR, finitef_ L v = true.
  Notation worlds := (@worlds E Rs).

  Lemma reset_goes : forall i (x y p : R), goes a c i (nth i (initial_states (M := mixR) (x : sng mixR) (y : sng mixR) (p : sng mixR)) (@nofZ (sng mixR) 0))
    (nth i (initial_states (M := mixR) ((x + IZR a)%R : sng mixR) ((y + IZR c)%R : sng mixR) (p : sng mixR)) (@nofZ (sng mixR) 0)).
  Proof. intros i x y p. do 44 (destruct i as [|i]; [first [exact Logic.I|reflexivity]|]). destruct i; reflexivity. Qed.

  (** the same brush but for the states and the skipping *)
  Definition kin (b1 b2 : brush) : Prop := exists l k x y t, b2 = with_skip (with_states b1 l) k x y t.
  Lemma kin_refl : forall b, kin b b.
  Proof. intros b. exists (b_states b), (b_skip b), (b_skip_x b), (b_skip_y b), (b_skipped b). destruct b. reflexivity. Qed.
  Lemma kin_skip : forall b1 b2 k x y t, kin b1 b2 -> kin (with_skip b1 k x y t) b2.
  Proof. intros b1 b2 k x y t (l & k' & x' & y' & t' & ->). exists l, k', x', y', t'. destruct b1. reflexivity. Qed.
  Lemma kin_skip2 : forall b1 b2 k x y t, kin b1 b2 -> kin b1 (with_skip b2 k x y t).
  Proof. intros b1 b2 k x y t (l & k' & x' & y' & t' & ->). exists l, k, x, y, t. destruct b1. reflexivity. Qed.
  Lemma kin_rng : forall b1 b2 g, kin b1 b2 -> kin (with_rng b1 g) (with_rng b2 g).
  Proof. intros b1 b2 g (l & k' & x' & y' & t' & ->). exists l, k', x', y', t'. destruct b1. reflexivity. Qed.
  Lemma alike_kin : forall b1 b2, alike b1 b2 -> kin b1 b2.
  Proof. intros b1 b2 [_ _ _ F _]. eexists _, _, _, _, _. exact F. Qed.
  Lemma kin_base : forall b1 b2 i, kin b1 b2 -> base b2 i = base b1 i.
  Proof. intros b1 b2 i (l & k' & x' & y' & t' & ->). reflexivity. Qed.
  Lemma kin_reset : forall b1 b2, kin b1 b2 -> b_reset b2 = b_reset b1.
  Proof. intros b1 b2 (l & k' & x' & y' & t' & ->). reflexivity. Qed.
  Lemma kin_same_rng : forall b1 b2, kin b1 b2 -> b_rng b2 = b_rng b1.
  Proof. intros b1 b2 (l & k' & x' & y' & t' & ->). reflexivity. Qed.

  Lemma brush_reset_kin : forall b1 b2, kin b1 b2 -> brush_reset (with_reset b2 false) = brush_reset (with_reset b1 false).
  Proof. intros b1 b2 (l & k' & x' & y' & t' & ->). reflexivity. Qed.

  Lemma reset_alike : forall b1 b2 (x y p : R) b1', kin b1 b2 -> do_reset b1 (x : sng mixR) (y : sng mixR) (p : sng mixR) = Ok b1' ->
    exists b2', do_reset b2 ((x + IZR a)%R : sng mixR) ((y + IZR c)%R : sng mixR) (p : sng mixR) = Ok b2' /\ alike b1' b2' /\ b_settings b1' = b_settings b1.
  Proof.
    intros b1 b2 x y p b1' K D. pose proof (do_reset_states _ _ _ _ _ D) as (S1 & _).
    assert (exists b2', do_reset b2 ((x + IZR a)%R : sng mixR) ((y + IZR c)%R : sng mixR) (p : sng mixR) = Ok b2' /\
      b2' = with_skip (with_states b1' (b_states b2')) (b_skip b1') (b_skip_x b2') (b_skip_y b2') (b_skipped b1') /\ b_skip b1' = (@nofZ (sng mixR) 0) /\ b_settings b1' = b_settings b1) as (b2' & D2 & F & Sk & Se).
    { unfold do_reset in *. rewrite (brush_reset_kin _ _ K). destruct (brush_reset (with_reset b1 false)) as [r1| |] eqn:E1; [|discriminate D|discriminate D]. cbn [obind] in *.
      destruct (e_next E (b_rng r1)) as [(r, g)| |]; [|discriminate D|discriminate D]. cbn [obind] in *. cbv zeta in *. apply Ok_inj in D. eexists. split; [reflexivity|]. subst b1'.
      split; [destruct r1; reflexivity|].
      unfold brush_reset in E1. cbv zeta in E1. cbn [with_states with_skip with_reset b_buckets] in E1.
      destruct (b_buckets b1) as [mem|]; [|apply Ok_inj in E1; subst r1; split; reflexivity].
      match type of E1 with (if ?c then _ else _) = _ => destruct c end; [|apply Ok_inj in E1; subst r1; split; reflexivity].
      apply obind_ok in E1. destruct E1 as (m & _ & E1). apply Ok_inj in E1. subst r1. split; reflexivity. }
    pose proof (do_reset_states _ _ _ _ _ D2) as (S2 & _). exists b2'. split; [exact D2|]. split; [|exact Se]. split.
    - unfold has_states. rewrite S1. reflexivity.
    - unfold has_states. rewrite S2. reflexivity.
    - intros i. unfold st. rewrite S1, S2. apply reset_goes.
    - exact F.
    - left. rewrite Sk. change (0 <= / 1000)%R. lra.
  Qed.

  (** either brushes that are alike already, or one and the same brush whose
      reset is pending *)
  Definition ready (b1 b2 : brush) : Prop := alike b1 b2 \/ (b2 = b1 /\ b_reset b1 = true /\ (base b1 SET_SLOW_TRACKING <= / 1000)%R).

  Lemma thousandth : forall k : R, @nlt (dbl mixR) (@dec mixR 1 1000) (@wid mixR (k : sng mixR)) = Rlt_bool (1 / 1000) k.
  Proof. reflexivity. Qed.

  Lemma skip_ready : forall b1 b2 (x y dt : R) b1' go, ready b1 b2 -> still b1 -> skip_input L b1 (x : sng mixR) (y : sng mixR) (dt : dbl mixR) = (b1', go) ->
    exists b2', skip_input L b2 ((x + IZR a)%R : sng mixR) ((y + IZR c)%R : sng mixR) (dt : dbl mixR) = (b2', go) /\ ready b1' b2' /\ still b1' /\ (go = None -> alike b1' b2').
  Proof.
    intros b1 b2 x y dt b1' go Rd St D. assert (still b1') as St'. { pose proof (skip_fields L _ _ _ _ _ _ D) as F. rewrite F. exact St. }
    assert (exists b2', skip_input L b2 ((x + IZR a)%R : sng mixR) ((y + IZR c)%R : sng mixR) (dt : dbl mixR) = (b2', go) /\ ready b1' b2' /\ (go = None -> alike b1' b2')) as (b2' & A & B & C); [|exists b2'; auto].
    clear St St'. unfold skip_input in *. cbv zeta in *. destruct Rd as [H|(-> & Rs1 & Sl)].
    - destruct (alike_random a c _ _ H) as (_ & _ & _ & _ & _ & _ & Er & Ek & Es & _). rewrite Er, Ek, Es in *. rewrite thousandth in *. destruct (Rlt_bool_spec (1 / 1000) (b_skip b1)) as [Lt|Ge].
      2:{ injection D as <- <-. exists b2. split; [reflexivity|]. split; [left; exact H|discriminate]. }
      destruct H as [H1 H2 S F [K|(Kx & Ky)]]; [exfalso; lra|].
      assert (@eq R (@nsub (sng mixR) (b_skip_x b2) (x + IZR a)%R) (@nsub (sng mixR) (b_skip_x b1) x)) as E1. { change (@nsub (sng mixR)) with Rminus. rewrite Kx. ring. }
      assert (@eq R (@nsub (sng mixR) (b_skip_y b2) (y + IZR c)%R) (@nsub (sng mixR) (b_skip_y b1) y)) as E2. { change (@nsub (sng mixR)) with Rminus. rewrite Ky. ring. }
      rewrite E1, E2. destruct (_ && _).
      + injection D as <- <-. eexists. split; [reflexivity|]. match goal with |- ready ?p ?q /\ _ => assert (alike p q) as A end.
        { split; [exact H1|exact H2|exact S|rewrite F; destruct b1; reflexivity|right; split; reflexivity]. }
        split; [left; exact A|intros _; exact A].
      + injection D as <- <-. eexists. split; [reflexivity|]. split; [|discriminate]. left.
        split; [exact H1|exact H2|exact S|rewrite F; destruct b1; reflexivity|left; change (0 <= / 1000)%R; lra].
    - rewrite thousandth in *. destruct (Rlt_bool_spec (1 / 1000) (b_skip b1)) as [Lt|Ge].
      2:{ injection D as <- <-. exists b1. split; [reflexivity|]. split; [right; auto|discriminate]. }
      rewrite Rs1, orb_true_r, andb_false_r in *. injection D as <- <-. eexists. split; [reflexivity|]. split; [|discriminate]. right. auto.
  Qed.

  Definition primed (b1 b2 : brush) : Prop := kin b1 b2 /\ (alike b1 b2 \/ b_reset b1 = true).

  Lemma fac_one : forall (T t : R), (T <= / 1000)%R -> filter_fac L (T : sng mixR) (t : sng mixR) = (1%R : sng mixR).
  Proof.
    intros T t H. unfold filter_fac, exp_decay. cbn [mixR wid dec dbl sng numR nle car nar nsub nofZ]. rewrite Rle_bool_true by (unfold Rdiv; rewrite Rmult_1_l; exact H). lra.
  Qed.

  Lemma track_alike : forall b1 b2 (x y dt : R) x' y' b1', ready b1 b2 -> still b1 -> track L b1 (x : sng mixR) (y : sng mixR) (dt : dbl mixR) = Ok (x', y', b1') ->
    exists b2', track L b2 ((x + IZR a)%R : sng mixR) ((y + IZR c)%R : sng mixR) (dt : dbl mixR) = Ok ((x' + IZR a)%R : sng mixR, (y' + IZR c)%R : sng mixR, b2') /\ primed b1' b2' /\ still b1'.
  Proof.
    intros b1 b2 x y dt x' y' b1' Rd St D. assert (still b1') as St'. { pose proof (track_fields L _ _ _ _ _ _ _ D) as F. rewrite F. exact St. }
    cut (exists b2', track L b2 ((x + IZR a)%R : sng mixR) ((y + IZR c)%R : sng mixR) (dt : dbl mixR) = Ok ((x' + IZR a)%R : sng mixR, (y' + IZR c)%R : sng mixR, b2') /\ primed b1' b2'); [intros (b2' & A & B); exists b2'; auto|].
    clear St St'. unfold track in *. cbv zeta in *.
    assert (kin b1 b2) as K by (destruct Rd as [H|(-> & _)]; [apply alike_kin; exact H|apply kin_refl]). rewrite !(kin_base _ _ _ K).
    set (noise := nmul (expf_ L _) _) in *. clearbody noise.
    match type of D with obind ?e _ = _ => destruct e as [((x1, y1), d1)| |] eqn:E1; [|discriminate D|discriminate D] end. cbn [obind] in D.
    assert (base d1 SET_SLOW_TRACKING = base b1 SET_SLOW_TRACKING /\ b_reset d1 = b_reset b1) as (Bd & Rd1).
    { destruct (truthy _); [|apply Ok_inj in E1; injection E1 as <- <- <-; auto]. destruct (nlt _ _); [|apply Ok_inj in E1; injection E1 as <- <- <-; auto].
      destruct (rand_gauss _) as [(r1, g1)| |]; [|discriminate E1|discriminate E1]. cbn [obind] in *. destruct (rand_gauss g1) as [(r2, g2)| |]; [|discriminate E1|discriminate E1]. cbn [obind] in *.
      apply Ok_inj in E1. injection E1 as <- <- <-. split; reflexivity. }
    match goal with |- context [obind ?e _] => assert (exists d2, e = Ok ((x1 + IZR a)%R : sng mixR, (y1 + IZR c)%R : sng mixR, d2) /\ kin d1 d2 /\ (alike d1 d2 \/ b_reset d1 = true /\ (base d1 SET_SLOW_TRACKING <= / 1000)%R)) as (d2 & E2 & K2 & R2) end.
    { assert (alike b1 b2 \/ b_reset d1 = true /\ (base d1 SET_SLOW_TRACKING <= / 1000)%R) as Rd2 by (rewrite Bd, Rd1; destruct Rd as [H|(_ & H)]; [left; exact H|right; exact H]).
      destruct (truthy _); [|apply Ok_inj in E1; injection E1 as <- <- <-; eauto]. destruct (nlt _ _); [|apply Ok_inj in E1; injection E1 as <- <- <-; eauto].
      change (b_rng (with_skip b1 ?k ?u ?v ?t)) with (b_rng b1) in *. change (b_rng (with_skip b2 ?k ?u ?v ?t)) with (b_rng b2) in *. rewrite (kin_same_rng _ _ K).
      destruct (rand_gauss (b_rng b1)) as [(r1, g1)| |]; [|discriminate E1|discriminate E1]. cbn [obind] in *. destruct (rand_gauss g1) as [(r2, g2)| |]; [|discriminate E1|discriminate E1]. cbn [obind] in *.
      apply Ok_inj in E1. injection E1 as <- <- <-. eexists. split; [|split].
      - match goal with |- Ok (?u, ?v, _) = Ok (?u2, ?v2, _) => assert (@eq R u u2) as Eu; [|assert (@eq R v v2) as Ev] end.
        { change (@nmul (sng mixR)) with Rmult. change (@nadd (sng mixR)) with Rplus. ring. } { change (@nmul (sng mixR)) with Rmult. change (@nadd (sng mixR)) with Rplus. ring. } rewrite Eu, Ev. reflexivity.
      - apply kin_rng, kin_skip, kin_skip2. exact K.
      - destruct Rd2 as [H|H]; [left|right; exact H]. destruct H as [H1 H2 S F _]. split; [exact H1|exact H2|exact S| |right; split; reflexivity]. rewrite F. destruct b1. reflexivity. }
    rewrite E2. cbn [obind]. rewrite (kin_base _ _ _ K2). pose proof (fac_one (base d1 SET_SLOW_TRACKING) (@nar mixR (@nmul (dbl mixR) (nofZ 100) dt))) as F1. set (fac := filter_fac L _ _) in *. clearbody fac.
    apply Ok_inj in D. injection D as <- <- <-. exists d2. split; [|split; [exact K2|destruct R2 as [H|(H & _)]; auto]].
    match goal with |- Ok (?u, ?v, _) = Ok (?u2, ?v2, _) => assert (@eq R u u2) as Eu; [|assert (@eq R v v2) as Ev; [|rewrite Eu, Ev; reflexivity]] end; change (@nmul (sng mixR)) with Rmult; change (@nadd (sng mixR)) with Rplus; change (@nsub (sng mixR)) with Rminus.
    - destruct R2 as [H|(_ & Sl)]; [rewrite (alike_x _ _ _ _ H); ring|rewrite (F1 Sl); ring].
    - destruct R2 as [H|(_ & Sl)]; [rewrite (alike_y _ _ _ _ H); ring|rewrite (F1 Sl); ring].
  Qed.

  (** *** Events *)
  Definition move_event (e : event mixR) : event mixR :=
    mkEvent ((ev_x e + IZR a)%R : sng mixR) ((ev_y e + IZR c)%R : sng mixR) (ev_pressure e) (ev_xtilt e) (ev_ytilt e) (ev_dtime e) (ev_viewzoom e) (ev_viewrotation e) (ev_barrel e) (ev_linear e).
  Definition near (e : event mixR) : Prop :=
    (Rabs (ev_x e) < 100000000 /\ Rabs (ev_y e) < 100000000 /\ Rabs (ev_x e + IZR a) < 100000000 /\ Rabs (ev_y e + IZR c) < 100000000)%R.

  Lemma rest_alike : forall n b1 b2 w1 w2 t e r b1' w1', ready b1 b2 -> still b1 -> worlds w1 w2 -> stroke_rest L n b1 w1 t e = Ok (Some (r, b1', w1')) ->
    exists b2' w2', stroke_rest L n b2 w2 t (move_event e) = Ok (Some (r, b2', w2')) /\ alike b1' b2' /\ still b1' /\ worlds w1' w2'.
  Proof.
    intros n b1 b2 w1 w2 t e r b1' w1' Rd St Hw D. unfold stroke_rest in *.
    change (ev_x (move_event e)) with ((ev_x e + IZR a)%R : sng mixR). change (ev_y (move_event e)) with ((ev_y e + IZR c)%R : sng mixR). change (ev_dtime (move_event e)) with (ev_dtime e).
    destruct (skip_input L b1 (ev_x e) (ev_y e) (ev_dtime e)) as (d1, go) eqn:E1. destruct (skip_ready _ _ _ _ _ _ _ Rd St E1) as (d2 & -> & Rd2 & St2 & Al). clear Rd St E1. destruct go as [dt|].
    2:{ apply Ok_inj in D. injection D as <- <- <-. eexists _, _. split; [reflexivity|]. split; [apply Al; reflexivity|]. split; [exact St2|exact Hw]. }
    clear Al. destruct (track L d1 (ev_x e) (ev_y e) dt) as [((x, y), c1)| |] eqn:E2; [|discriminate D|discriminate D]. cbn [obind] in D.
    destruct (track_alike _ _ _ _ _ _ _ _ Rd2 St2 E2) as (c2 & -> & (K & Pr) & St3). cbn [obind]. clear Rd2 St2 E2. rewrite (kin_reset _ _ K).
    destruct (nlt _ _ || b_reset c1) eqn:G.
    - destruct (do_reset c1 x y (ev_pressure e)) as [k1| |] eqn:E3; [|discriminate D|discriminate D]. cbn [obind] in D. destruct (reset_alike _ _ _ _ _ _ K E3) as (k2 & E4 & Ak & Se).
      change (ev_pressure (move_event e)) with (ev_pressure e). rewrite E4. cbn [obind]. apply Ok_inj in D. injection D as <- <- <-. eexists _, _. split; [reflexivity|]. split; [exact Ak|]. split; [unfold still; rewrite Se; exact St3|exact Hw].
    - apply orb_false_iff in G. destruct G as (_ & G). destruct Pr as [Pr|Pr]; [|rewrite Pr in G; discriminate G].
      destruct (paint_alike L a c Rs HD _ _ _ _ _ _ _ _ _ _ Pr St3 Hw D) as (b2' & w2' & P & Q). exists b2', w2'. split; [exact P|exact Q].
  Qed.

  Lemma sane_event : forall e t e1, near e -> sanitise L e = Ok (t, e1) -> sanitise L (move_event e) = Ok (t, move_event e1) /\ near e1.
  Proof.
    intros e t e1 (X & Y & X2 & Y2) H. apply Rabs_def2 in X, Y, X2, Y2. unfold sanitise in *. cbv zeta in *.
    change (ev_x (move_event e)) with ((ev_x e + IZR a)%R : sng mixR). change (ev_y (move_event e)) with ((ev_y e + IZR c)%R : sng mixR).
    change (read_tilt L (ev_xtilt (move_event e)) (ev_ytilt (move_event e))) with (read_tilt L (ev_xtilt e) (ev_ytilt e)).
    destruct (read_tilt L _ _) as [t0| |]; [|discriminate H|discriminate H]. cbn [obind] in *. rewrite !HF in *. cbn [negb orb] in *.
    change (@nlt (dbl mixR)) with Rlt_bool in *. change (@wid mixR) with (fun v : R => v) in *. change (@nofZ (dbl mixR)) with IZR in *. cbv beta in *.
    rewrite !(Rlt_bool_false 10000000000), !(Rlt_bool_false _ (-10000000000)) in * by lra. cbn [orb] in *. cbn [ev_x ev_y] in *.
    rewrite !(Rlt_bool_true _ 100000000), !(Rlt_bool_true (-100000000)) in * by lra. cbn [andb] in *. apply Ok_inj in H. injection H as <- <-. split; [reflexivity|].
    unfold near. cbn [ev_x ev_y]. repeat split; apply Rabs_def1; lra.
  Qed.

  Theorem stroke_alike : forall n b1 b2 w1 w2 e r b1' w1', ready b1 b2 -> still b1 -> worlds w1 w2 -> near e -> stroke_to L n b1 w1 e = Ok (Some (r, b1', w1')) ->
    exists b2' w2', stroke_to L n b2 w2 (move_event e) = Ok (Some (r, b2', w2')) /\ alike b1' b2' /\ still b1' /\ worlds w1' w2'.
  Proof.
    intros n b1 b2 w1 w2 e r b1' w1' Rd St Hw Ne D. unfold stroke_to in *. destruct (sanitise L e) as [(t, e1)| |] eqn:Es; [|discriminate D|discriminate D]. cbn [obind] in D.
    destruct (sane_event _ _ _ Ne Es) as (-> & Ne1). cbn [obind].
    assert (st b2 STATE_PRESSURE = st b1 STATE_PRESSURE) as -> by (destruct Rd as [H|(-> & _)]; [apply (alike_same a c _ _ _ H); reflexivity|reflexivity]).
    change (ev_dtime (move_event e1)) with (ev_dtime e1). change (ev_pressure (move_event e1)) with (ev_pressure e1). destruct (_ && _ && _); [|apply (rest_alike _ _ _ _ _ _ _ _ _ _ Rd St Hw D)].
    destruct (sanitise L (silent_event e1)) as [(t', e')| |] eqn:Es'; [|discriminate D|discriminate D]. cbn [obind] in D. change (silent_event (move_event e1)) with (move_event (silent_event e1)).
    destruct (sane_event (silent_event e1) _ _ Ne1 Es') as (-> & _). cbn [obind]. destruct (stroke_rest L n b1 w1 t' e') as [[((r0, c1), v1)|]| |] eqn:E1; [|discriminate D|discriminate D|discriminate D]. cbn [obind] in D.
    destruct (rest_alike _ _ _ _ _ _ _ _ _ _ Rd St Hw E1) as (c2 & v2 & -> & A2 & St2 & W2). cbn [obind]. change (with_dtime (move_event e1) ?u) with (move_event (with_dtime e1 u)).
    exact (rest_alike _ _ _ _ _ _ _ _ _ _ (or_introl A2) St2 W2 D).
  Qed.
End Events.
