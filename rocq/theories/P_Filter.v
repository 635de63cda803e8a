(** Property C45: the low-pass filters of the brush engine stay between the old
    value and the target (exact real arithmetic). *)
From Verif Require Import Base F32 F32Proofs Arith Color Mapping P_Mapping Settings Spectral Brush BrushProofs BrushInst ReturnProofs StepFacts StrokeExact RealToy P_Reset DabFrame P_Spacing.
From Coq Require Import Reals Lra Sorted.
From Flocq Require Import Core.Core.
Local Open Scope Z_scope.

Section Filter.
  Context (L : mathlib mixR) (RL : real_library L) {E : env mixR}.
  Notation brush := (brush E).
  Local Open Scope R_scope.

  (** *** The vocabulary *)
  Definition between (a b x : R) : Prop := Rmin a b <= x <= Rmax a b.

  (** Theorem: the filter factor is in [0,1] for every time constant and every
      time that is not negative; 0 only without time, and it grows with time. *)
  Lemma factor_is : forall T t : R, (filter_fac L T t : R) = if Rle_bool T (1 / 1000) then 1 else 1 - exp (- t / T).
  Proof.
    intros T t. unfold filter_fac, exp_decay. cbn [mixR wid nar dec nle nofZ sng dbl numR car ndiv nsub]. destruct (Rle_bool T (1 / 1000)); [lra|].
    rewrite (rl_exp L RL), (rl_neg L RL). reflexivity.
  Qed.
  Lemma exp_range : forall T t, 1 / 1000 < T -> 0 <= t -> 0 < exp (- t / T) <= 1.
  Proof.
    intros T t HT Ht. split; [apply exp_pos|]. rewrite <- exp_0. destruct (Req_dec t 0) as [->|Hn]; [right; f_equal; field; lra|].
    left. apply exp_increasing. unfold Rdiv. rewrite Ropp_mult_distr_l_reverse. assert (0 < / T) by (apply Rinv_0_lt_compat; lra). assert (0 < t * / T) by (apply Rmult_lt_0_compat; lra). lra.
  Qed.
  Theorem C45_factor : forall T t : R, 0 <= t ->
    0 <= (filter_fac L T t : R) <= 1 /\ (forall t', t <= t' -> (filter_fac L T t : R) <= filter_fac L T t') /\ (1 / 1000 < T -> (filter_fac L T t : R) < 1 /\ ((filter_fac L T t : R) = 0 <-> t = 0)).
  Proof.
    intros T t Ht. setoid_rewrite factor_is. destruct (Rle_bool_spec T (1 / 1000)) as [K|K]; [repeat split; intros; lra|].
    destruct (exp_range T t K Ht) as [A B]. split; [lra|]. split.
    - intros t' Hl. destruct (Req_dec t t') as [->|Hn]; [lra|]. assert (exp (- t' / T) < exp (- t / T)); [|lra]. apply exp_increasing. unfold Rdiv. apply Rmult_lt_compat_r; [apply Rinv_0_lt_compat; lra|lra].
    - intros _. split; [lra|]. split; [|intros ->; replace (- 0 / T) with 0 by (field; lra); rewrite exp_0; lra].
      intros H0. assert (exp (- t / T) = exp 0) as H1 by (rewrite exp_0; lra). apply exp_inv in H1. unfold Rdiv in H1. apply Rmult_integral in H1. destruct H1; [lra|]. pose proof (Rinv_0_lt_compat T ltac:(lra)). lra.
  Qed.

  Lemma blend_between : forall o t f : R, 0 <= f <= 1 -> between o t (o + (t - o) * f).
  Proof.
    intros o t f Hf. unfold between, Rmin, Rmax. destruct (Rle_dec o t).
    - assert (0 <= (t - o) * f <= (t - o) * 1) by (split; [apply Rmult_le_pos; lra|apply Rmult_le_compat_l; lra]). lra.
    - assert (0 <= (o - t) * f <= (o - t) * 1) by (split; [apply Rmult_le_pos; lra|apply Rmult_le_compat_l; lra]). lra.
  Qed.
  Lemma step_time_pos : forall t : R, 0 < (step_time (t : sng mixR) : R).
  Proof.
    intros t. unfold step_time. cbn [mixR wid nar dec nlt neqb nofZ sng dbl numR car]. destruct (Rlt_bool_spec t 0); [cbn; lra|]. destruct (Req_bool_spec t 0); [cbn; lra|lra].
  Qed.

  (** What a step of the pen aims at: the pen's own position, its speed and
      direction in this step, the value of the custom setting. *)
  Record step_view := mkView { v_x : R; v_y : R; v_dx : R; v_dy : R; v_ddab : R; v_zoom : R; v_time : R; v_custom : R }.
  Definition view_of (p : step mixR) (b' : brush) : step_view :=
    mkView (st b' STATE_X) (st b' STATE_Y) (sp_dx p) (sp_dy p) (sp_ddab p) (sp_viewzoom p) (step_time (sp_dtime p)) (val b' SET_CUSTOM_INPUT).
  Definition aim (v : step_view) (i : nat) (target : R) : Prop :=
    let sx := v_dx v / v_time v * v_zoom v in
    let sy := v_dy v / v_time v * v_zoom v in
    (i = STATE_ACTUAL_X /\ target = v_x v) \/ (i = STATE_ACTUAL_Y /\ target = v_y v) \/
    ((i = STATE_NORM_SPEED1_SLOW \/ i = STATE_NORM_SPEED2_SLOW) /\ target = sqrt (sx * sx + sy * sy)) \/
    (i = STATE_NORM_DX_SLOW /\ target = sx) \/ (i = STATE_NORM_DY_SLOW /\ target = sy) \/
    (i = STATE_DIRECTION_ANGLE_DX /\ target = v_dx v * v_zoom v) \/ (i = STATE_DIRECTION_ANGLE_DY /\ target = v_dy v * v_zoom v) \/
    (i = STATE_CUSTOM_INPUT /\ target = v_custom v).

  Ltac kept_ Kp := rewrite ?(Kp STATE_ACTUAL_X), ?(Kp STATE_ACTUAL_Y), ?(Kp STATE_NORM_SPEED1_SLOW), ?(Kp STATE_NORM_SPEED2_SLOW), ?(Kp STATE_NORM_DX_SLOW), ?(Kp STATE_NORM_DY_SLOW), ?(Kp STATE_DIRECTION_ANGLE_DX), ?(Kp STATE_DIRECTION_ANGLE_DY), ?(Kp STATE_DIRECTION_DX), ?(Kp STATE_DIRECTION_DY), ?(Kp STATE_CUSTOM_INPUT) by (cbn; tauto); reflexivity.
  (** Theorem: every step leaves each of these states between its old value and
      what the step aims at; the direction vector goes towards the step or
      towards its opposite. *)
  Theorem C45_between : forall (b b' : brush) (p : step mixR), has_states b -> 0 <= (sp_ddab p : R) -> update_states L b p = Ok b' ->
    (forall i target, aim (view_of p b') i target -> between (st b i) target (st b' i)) /\
    exists sign, (sign = 1 \/ sign = -1) /\
      between (st b STATE_DIRECTION_DX) (sign * (sp_dx p * sp_viewzoom p)) (st b' STATE_DIRECTION_DX) /\
      between (st b STATE_DIRECTION_DY) (sign * (sp_dy p * sp_viewzoom p)) (st b' STATE_DIRECTION_DY).
  Proof.
    intros b b' p Hs Hd U. destruct (update_facts L _ _ _ Hs U) as (b1 & (A1 & A2 & A3 & A4 & A5 & _) & (B1 & B2 & _ & (C1 & C2) & (D1 & D2) & (tc & F1 & F2) & (tc2 & o & G1 & G2 & G3 & G4) & H1) & _ & _ & _ & Ev).
    rewrite Forall_forall in A5, B2. pose proof (B2 STATE_X ltac:(cbn; auto)) as BX. pose proof (B2 STATE_Y ltac:(cbn; auto)) as BY.
    assert (forall i, In i [STATE_ACTUAL_X; STATE_ACTUAL_Y; STATE_NORM_SPEED1_SLOW; STATE_NORM_SPEED2_SLOW; STATE_NORM_DX_SLOW; STATE_NORM_DY_SLOW; STATE_DIRECTION_ANGLE_DX; STATE_DIRECTION_ANGLE_DY; STATE_DIRECTION_DX; STATE_DIRECTION_DY; STATE_CUSTOM_INPUT] -> st b1 i = st b i) as Kp.
    { intros i Hi. apply A5. cbn in Hi |- *. tauto. }
    assert (val b' SET_CUSTOM_INPUT = val b1 SET_CUSTOM_INPUT) as Ec by (unfold val; rewrite Ev; reflexivity).
    assert (forall T t : R, 0 <= t -> forall o q v : R, (v : R) = nadd (o : sng mixR) (nmul (nsub (q : sng mixR) o) (filter_fac L T t)) -> between o q v) as K.
    { intros T t Ht o0 q v ->. apply blend_between. apply C45_factor. exact Ht. }
    pose proof (step_time_pos (sp_dtime p)) as Tp.
    assert (0 <= (hypotf_ L (nmul (sp_dx p) (st b1 STATE_VIEWZOOM)) (nmul (sp_dy p) (st b1 STATE_VIEWZOOM)) : R)) as Hp by (rewrite (rl_hypot L RL); apply sqrt_pos).
    assert (forall q : R, (step_time (sp_dtime p) : R) = q -> q = step_time (sp_dtime p)) as _ by auto.
    split.
    - intros i target Ha. unfold aim, view_of in Ha. cbn [v_x v_y v_dx v_dy v_ddab v_zoom v_time v_custom] in Ha.
      destruct Ha as [(-> & ->)|[(-> & ->)|[([-> | ->] & ->)|[(-> & ->)|[(-> & ->)|[(-> & ->)|[(-> & ->)|(-> & ->)]]]]]]].
      + apply (K (val b1 SET_SLOW_TRACKING_PER_DAB) (sp_ddab p) Hd). rewrite C1, BX. kept_ Kp.
      + apply (K (val b1 SET_SLOW_TRACKING_PER_DAB) (sp_ddab p) Hd). rewrite C2, BY. kept_ Kp.
      + apply (K (val b1 SET_SPEED1_SLOWNESS) (step_time (sp_dtime p)) ltac:(lra)). rewrite D1. unfold norm_dx, norm_dy. rewrite A4. rewrite (rl_hypot L RL). kept_ Kp.
      + apply (K (val b1 SET_SPEED2_SLOWNESS) (step_time (sp_dtime p)) ltac:(lra)). rewrite D2. unfold norm_dx, norm_dy. rewrite A4. rewrite (rl_hypot L RL). kept_ Kp.
      + apply (K tc (step_time (sp_dtime p)) ltac:(lra)). rewrite F1. unfold norm_dx. rewrite A4. kept_ Kp.
      + apply (K tc (step_time (sp_dtime p)) ltac:(lra)). rewrite F2. unfold norm_dy. rewrite A4. kept_ Kp.
      + apply (K tc2 _ Hp). rewrite G1. rewrite A4 in *. kept_ Kp.
      + apply (K tc2 _ Hp). rewrite G2. rewrite A4 in *. kept_ Kp.
      + apply (K (val b1 SET_CUSTOM_INPUT_SLOWNESS) (nar (m := mixR) (dec 1 10)) ltac:(cbn; lra)). rewrite H1, Ec. kept_ Kp.
    - exists (if o then -1 else 1). split; [destruct o; auto|]. rewrite A4 in *. destruct o.
      + split; apply (K tc2 _ Hp).
        * rewrite G3. rewrite (rl_neg L RL). replace (-1 * (sp_dx p * sp_viewzoom p)) with (- (sp_dx p * sp_viewzoom p)) by ring. kept_ Kp.
        * rewrite G4. rewrite (rl_neg L RL). replace (-1 * (sp_dy p * sp_viewzoom p)) with (- (sp_dy p * sp_viewzoom p)) by ring. kept_ Kp.
      + split; apply (K tc2 _ Hp).
        * rewrite G3. rewrite Rmult_1_l. kept_ Kp.
        * rewrite G4. rewrite Rmult_1_l. kept_ Kp.
  Qed.

  (** Theorem: without tracking noise the position an event is tracked to lies
      between the old pen position and the event. *)
  Theorem C45_tracking : forall (b b' : brush) (x y t x' y' : R), (base b SET_TRACKING_NOISE : R) = 0 -> 0 <= t -> track L b x y t = Ok ((x' : sng mixR), (y' : sng mixR), b') ->
    between (st b STATE_X) x x' /\ between (st b STATE_Y) y y' /\ b' = b.
  Proof.
    intros b b' x y t x' y' Hn Ht H. unfold track in H. rewrite Hn in H.
    assert (truthy (0 : sng mixR) = false) as E0 by (unfold truthy; cbn; rewrite Req_bool_true; auto). rewrite E0 in H. cbn [obind] in H. cbv zeta in H. apply Ok_inj in H.
    destruct (C45_factor (base b SET_SLOW_TRACKING) (100 * t) ltac:(lra)) as [F _]. assert (b' = b) as -> by exact (f_equal snd (eq_sym H)).
    assert (x' = st b STATE_X + (x - st b STATE_X) * filter_fac L (base b SET_SLOW_TRACKING) (100 * t)) as -> by exact (f_equal (fun q => fst (fst q)) (eq_sym H)).
    assert (y' = st b STATE_Y + (y - st b STATE_Y) * filter_fac L (base b SET_SLOW_TRACKING) (100 * t)) as -> by exact (f_equal (fun q => snd (fst q)) (eq_sym H)).
    split; [|split; [|reflexivity]]; apply blend_between; exact F.
  Qed.

  (** *** The pen never leaves the box of the events *)
  Context (xlo xhi ylo yhi : R).
  Definition in_box (x y : R) : Prop := xlo <= x <= xhi /\ ylo <= y <= yhi.
  (** the pen and the position dabs are painted at (before the offsets) *)
  Definition inside (b : brush) : Prop := in_box (st b STATE_X) (st b STATE_Y) /\ in_box (st b STATE_ACTUAL_X) (st b STATE_ACTUAL_Y).
  Definition event_in_box (e : event mixR) : Prop := in_box (ev_x e) (ev_y e) /\ Rabs (ev_x e) <= 10000000000 /\ Rabs (ev_y e) <= 10000000000.

  Lemma between_in : forall lo hi a b x, lo <= a <= hi -> lo <= b <= hi -> between a b x -> lo <= x <= hi.
  Proof. intros lo hi a b x H1 H2. unfold between, Rmin, Rmax. destruct (Rle_dec a b); lra. Qed.
  Lemma way_in : forall lo hi a b l, lo <= a <= hi -> lo <= b <= hi -> 0 <= l <= 1 -> lo <= a + l * (b - a) <= hi.
  Proof. intros lo hi a b l H1 H2 Hl. apply (between_in lo hi a b); auto. rewrite Rmult_comm. apply blend_between. exact Hl. Qed.
  Lemma update_inside : forall (b b' : brush) (p : step mixR), has_states b -> 0 <= (sp_ddab p : R) -> update_states L b p = Ok b' ->
    inside b -> in_box (st b' STATE_X) (st b' STATE_Y) -> inside b'.
  Proof.
    intros b b' p Hs Hd U (_ & A1 & A2) X. destruct (C45_between b b' p Hs Hd U) as [K _]. split; [exact X|]. destruct X as [X Y].
    split; [apply (between_in xlo xhi (st b STATE_ACTUAL_X) (st b' STATE_X)); auto|apply (between_in ylo yhi (st b STATE_ACTUAL_Y) (st b' STATE_Y)); auto]; apply K; unfold aim; cbn [view_of v_x v_y]; auto.
  Qed.
  Lemma dabs_inside : forall k x0 y0 m0 t0 lam (g : target mixR) p p', in_box x0 y0 -> in_box (g_x g) (g_y g) -> walked x0 y0 m0 t0 lam g p -> inside (p_brush p) -> Forall (fun e => inside (snd e)) (p_log p) ->
    dabs L k g p = Ok (Some p') -> inside (p_brush p') /\ Forall (fun e => inside (snd e)) (p_log p').
  Proof.
    induction k as [|k IH]; intros x0 y0 m0 t0 lam g p p' B0 Bg W Hi Hl H; cbn [dabs] in H; destruct (pending p) eqn:Pe; try discriminate; try (apply Ok_inj in H; injection H as <-; auto; fail).
    apply obind_ok in H. destruct H as (p1 & E1 & H). destruct (one_dab_walks L _ _ _ _ _ _ _ _ W Pe E1) as (dd & lam' & sp & b1 & b2 & Bd & El & W' & Lg & Dd & U & H2 & Sm & Es & Cn).
    assert (on_way x0 y0 (g_x g) (g_y g) lam' (p_brush p1) /\ 0 <= lam' <= 1) as [(X1 & Y1) Hlam] by (destruct W' as [_ _ _ _ _ _ _ (ls & Wl & Wo & _)]; auto).
    destruct (count_facts L _ _ _ _ _ _ H2 Cn) as (_ & _ & O).
    assert (forall i, (i < 5 \/ 13 < i)%nat -> i <> STATE_FLIP -> i <> STATE_ACTUAL_RADIUS -> st (p_brush p1) i = st b1 i) as Kp by (intros i I1 I2 I3; rewrite O by exact I3; apply Sm; auto).
    assert (inside b1) as I1.
    { apply (update_inside (p_brush p) b1 sp); auto; [apply W|unfold ddab in Dd; lra|]. unfold stR in X1, Y1.
      rewrite <- (Kp STATE_X), <- (Kp STATE_Y) by (vm_compute; first [lia|discriminate]). rewrite X1, Y1. split; apply way_in; auto; apply B0 || apply Bg. }
    apply (IH x0 y0 m0 t0 lam' g p1 p'); auto.
    - unfold inside. rewrite !Kp by (vm_compute; first [lia|discriminate]). exact I1.
    - rewrite Lg. constructor; auto.
  Qed.

  (** tracking noise off, a fraction of a dab due, no negative time held back *)
  Definition tame (b : brush) : Prop := has_states b /\ 0 <= remainder b < 1 /\ (base b SET_TRACKING_NOISE : R) = 0 /\ 0 <= (b_skipped b : R).

  Lemma skip_times : forall (b : brush) (x y t : R) b1 go, 0 <= t -> 0 <= (b_skipped b : R) -> skip_input L b x y (t : dbl mixR) = (b1, go) -> 0 <= (b_skipped b1 : R) /\ forall dt, go = Some dt -> 0 <= (dt : R).
  Proof.
    intros b x y t b1 go Ht Hk H. unfold skip_input in H. cbv zeta in H. match type of H with (if ?c then _ else _) = _ => destruct c end.
    - match type of H with (if ?c then _ else _) = _ => destruct c end.
      + split; [|congruence]. apply (f_equal fst) in H. cbn [fst] in H. subst b1. cbn [with_skip b_skipped]. cbn [mixR wid nar nadd sng dbl numR car]. lra.
      + split.
        * apply (f_equal fst) in H. cbn [fst] in H. subst b1. cbn [with_skip b_skipped]. cbn. lra.
        * intros dt E0. apply (f_equal snd) in H. cbn [snd] in H. rewrite E0 in H. apply (f_equal (fun o => match o with Some v => v | None => dt end)) in H. cbn beta iota in H. rewrite <- H. cbn [mixR wid nar nadd sng dbl numR car]. lra.
    - split; [apply (f_equal fst) in H; cbn [fst] in H; subst b1; exact Hk|]. intros dt E0. apply (f_equal snd) in H. cbn [snd] in H. rewrite E0 in H. injection H as <-. exact Ht.
  Qed.
  Lemma rest_inside : forall n (b : brush) w t (e : event mixR) a b' w', tame b -> 0 <= (ev_dtime e : R) ->
    inside b -> in_box (ev_x e) (ev_y e) -> stroke_rest L n b w t e = Ok (Some (a, b', w')) -> inside b' /\ tame b'.
  Proof.
    intros n b w t e a b' w' (Hs & Hr & Hn & Hk) Ht Hi He O. destruct (rest_remainder L n b w t e a b' w' Hs Hr O) as [Hs' Hr'].
    unfold stroke_rest in O. destruct (skip_input _ _ _ _ _) as [b1 go] eqn:E1. destruct (skip_times _ _ _ _ _ _ Ht Hk E1) as [Hk1 Hgo]. apply skip_fields in E1.
    assert (inside b1 /\ has_states b1 /\ 0 <= remainder b1 < 1 /\ (base b1 SET_TRACKING_NOISE : R) = 0) as (Hi1 & Hs1 & Hr1 & Hn1) by (rewrite E1; auto). clear E1.
    destruct go as [dt|]; [|apply Ok_inj in O; injection O as _ <- _; split; [exact Hi1|split; auto]]. specialize (Hgo dt eq_refl).
    apply obind_ok in O. destruct O as (((x, y), b2) & E2 & O). destruct (C45_tracking b1 b2 (ev_x e) (ev_y e) dt x y Hn1 Hgo E2) as (X & Y & ->). clear E2.
    assert (in_box x y) as Hxy. { destruct Hi1 as [[A1 A2] _]. destruct He as [A3 A4]. split; [exact (between_in _ _ _ _ _ A1 A3 X)|exact (between_in _ _ _ _ _ A2 A4 Y)]. }
    match type of O with (if ?c then _ else _) = _ => destruct c end.
    - apply obind_ok in O. destruct O as (b3 & E3 & O). apply Ok_inj in O. injection O as _ <- _. pose proof E3 as E4. apply do_reset_states in E3. destruct E3 as [E3 _]. split.
      + unfold inside, st. rewrite E3. cbn [initial_states map seq initial_state nth STATE_X STATE_Y STATE_ACTUAL_X STATE_ACTUAL_Y STATES_COUNT]. split; exact Hxy.
      + split; [exact Hs'|]. split; [exact Hr'|]. unfold do_reset in E4. apply obind_ok in E4. destruct E4 as (b4 & E4 & E5). apply obind_ok in E5. destruct E5 as ((r, g) & _ & E5). cbv zeta in E5. apply Ok_inj in E5.
        assert (base b3 SET_TRACKING_NOISE = base b4 SET_TRACKING_NOISE /\ b_skipped b3 = b_skipped b4) as [-> ->] by (rewrite <- E5; split; reflexivity).
        unfold brush_reset in E4. cbv zeta in E4. cbn [with_states with_skip with_reset b_buckets] in E4. destruct (b_buckets b1) as [mem|].
        * match type of E4 with (if ?c then _ else _) = _ => destruct c end; [apply obind_ok in E4; destruct E4 as (m & _ & E4)|]; apply Ok_inj in E4; rewrite <- E4; (split; [exact Hn1|cbn; lra]).
        * apply Ok_inj in E4. rewrite <- E4. split; [exact Hn1|cbn; lra].
    - unfold paint_to in O. apply obind_ok in O. destruct O as ([p|] & E3 & O); [|discriminate]. apply obind_ok in O. destruct O as ((a', b3) & E4 & O). apply Ok_inj in O. injection O as _ <- _.
      set (g := mkTarget x y (ev_pressure e) t (ev_viewzoom e) (ev_viewrotation e) (ev_barrel e) (ev_linear e)) in *.
      pose proof (paint_dabs_frame L _ _ _ _ _ _ E3) as F1. destruct (paint_rest_frame L _ _ _ _ _ E4) as (u & v & F2).
      assert (b_settings b3 = b_settings b1 /\ b_skipped b3 = b_skipped b1) as [Fs Fk] by (rewrite F2; cbn [b_settings b_skipped with_times]; rewrite F1; split; reflexivity).
      split; [|split; [exact Hs'|split; [exact Hr'|split; [unfold base in *; rewrite Fs; exact Hn1|rewrite Fk; exact Hk1]]]].
      destruct (paint_walk L n b1 w g dt p Hs1 Hr1 E3) as (lam & W & _). destruct (rest_walk L p g dt a' b3 (wk_states _ _ _ _ _ _ _ W) E4) as (_ & X3 & Y3 & _).
      assert (inside (p_brush p)) as Ip.
      { unfold paint_dabs in E3. cbv zeta in E3. destruct (count_dabs_to _ _ _ _ _) as [todo b4] eqn:Ec. pose proof (start_walk L b1 w g dt todo b4 Hs1 Hr1 Ec) as W0.
        destruct (count_facts L _ _ _ _ _ _ Hs1 Ec) as (_ & _ & Oc).
        refine (proj1 (dabs_inside n _ _ _ _ 0 g _ p _ _ W0 _ _ E3)); [apply Hi1|exact Hxy| |constructor]. cbn [p_brush]. unfold inside. rewrite !Oc by discriminate. exact Hi1. }
      unfold paint_rest in E4. apply obind_ok in E4. destruct E4 as (b5 & E5 & E6). cbv zeta in E6. apply Ok_inj in E6.
      assert (forall i, i <> STATE_PARTIAL_DABS -> st b3 i = st b5 i) as K5.
      { intros i Hi5. rewrite <- (st_set_other b5 STATE_PARTIAL_DABS i (nadd (p_moved p) (p_todo p))) by congruence. unfold stroke_split in E6. cbv zeta in E6. revert E6.
        set (b2 := set_st b5 STATE_PARTIAL_DABS (nadd (p_moved p) (p_todo p))). clearbody b2.
        generalize (match p_painted p with Some v => v | None => negb (nlt (nofZ 0) (b_idling b2) || neqb (b_painting b2) (nofZ 0)) end).
        intros [|] H; [injection H as _ <-; reflexivity|]. match type of H with (if ?c then _ else _) = _ => destruct c end; injection H as _ <-; reflexivity. }
      unfold inside. rewrite !K5 by discriminate. apply (update_inside (p_brush p) b5 (last_step p g) (wk_states _ _ _ _ _ _ _ W)); [apply W|exact E5|exact Ip|].
      rewrite <- !K5 by discriminate. unfold stR in X3, Y3. rewrite X3, Y3. exact Hxy.
  Qed.
  Lemma sane_event : forall (e : event mixR) t e1, event_in_box e -> sanitise L e = Ok (t, e1) -> event_in_box e1 /\ 0 < (ev_dtime e1 : R).
  Proof.
    intros e t e1 (Hb & Hx & Hy) H. unfold sanitise in H. apply obind_ok in H. destruct H as (t0 & _ & H). cbv zeta in H. rewrite !(rl_finite L RL) in H. cbn [negb orb] in H.
    cbn [mixR wid nlt nle nofZ sng dbl numR car dec] in H. apply Rabs_le_inv in Hx. apply Rabs_le_inv in Hy. rewrite !(Rlt_bool_false 10000000000), !(Rlt_bool_false _ (-10000000000)) in H by lra. cbn [orb] in H.
    match type of H with (if ?c then _ else _) = _ => destruct c; [|discriminate] end. apply Ok_inj in H. apply (f_equal snd) in H. cbn [snd] in H. subst e1. cbn [ev_x ev_y ev_dtime]. split.
    - split; [exact Hb|]. split; apply Rabs_le; cbn; lra.
    - destruct (Rle_bool_spec (ev_dtime e) 0); lra.
  Qed.

  (** Theorem: for every sequence of events in a box, the pen and the slow pen
      stay in the box. *)
  Theorem C45_hull : forall n (es : list (event mixR)) (b b' : brush) w w', tame b -> inside b -> Forall event_in_box es ->
    ofold (fun a e => match a with Some (b, w) => let* r := stroke_to L n b w e in Ok (option_map (fun x => let '(_, b, w) := x in (b, w)) r) | None => Ok None end) es (Some (b, w)) = Ok (Some (b', w')) ->
    inside b'.
  Proof.
    intros n es. induction es as [|e es IH]; intros b b' w w' Ht Hi Fe H; cbn [ofold] in H; [apply Ok_inj in H; injection H as <- _; exact Hi|].
    inversion Fe as [|? ? He Fe']; subst. apply obind_ok in H. destruct H as (r & Er & H). destruct r as [[b1 w1]|]; [|exfalso; clear - H; induction es; cbn in H; [discriminate|auto]].
    apply obind_ok in Er. destruct Er as (r & Er & E1). apply Ok_inj in E1. destruct r as [((a, b2), w2)|]; [|discriminate]. cbn [option_map] in E1. injection E1 as -> ->.
    assert (inside b1 /\ tame b1) as [Hi1 Ht1]; [|exact (IH b1 b' w1 w' Ht1 Hi1 Fe' H)].
    unfold stroke_to in Er. apply obind_ok in Er. destruct Er as ((t, e1) & Es & Er). destruct (sane_event _ _ _ He Es) as [He1 Hd1]. match type of Er with (if ?c then _ else _) = _ => destruct c end.
    - apply obind_ok in Er. destruct Er as ((t2, e2) & Es2 & Er). apply obind_ok in Er. destruct Er as (r2 & Er2 & Er). destruct r2 as [((a3, b3), w3)|]; [|discriminate].
      assert (event_in_box e2 /\ 0 < (ev_dtime e2 : R)) as [He2 Hd2] by (apply (sane_event (silent_event e1) t2); [exact He1|exact Es2]).
      destruct (rest_inside _ _ _ _ _ _ _ _ Ht (Rlt_le _ _ Hd2) Hi (proj1 He2) Er2) as [Hi3 Ht3].
      refine (rest_inside _ _ _ _ _ _ _ _ Ht3 _ Hi3 _ Er); [cbn; lra|exact (proj1 He1)].
    - exact (rest_inside _ _ _ _ _ _ _ _ Ht (Rlt_le _ _ Hd1) Hi (proj1 He1) Er).
  Qed.
End Filter.

(** *** A case: the brush of [C34_case] gets the event (3, 4); it returns, and the
    pen stays in the box [0,3] x [0,4]. *)
Definition case_event : event mixR :=
  mkEvent (M := mixR) (3%R : sng mixR) (4%R : sng mixR) (1%R : sng mixR) (0%R : sng mixR) (0%R : sng mixR) ((1 / 10)%R : dbl mixR) (1%R : sng mixR) (0%R : sng mixR) (0%R : sng mixR) false.
Lemma case_event_in : event_in_box 0 3 0 4 case_event.
Proof. unfold event_in_box, in_box. change (ev_x case_event) with 3%R. change (ev_y case_event) with 4%R. rewrite !Rabs_pos_eq by lra. lra. Qed.
Lemma case_tame : tame case_brush.
Proof.
  split; [apply flat_states|]. split; [rewrite case_remainder; lra|]. split; [|cbn; lra].
  unfold case_brush. rewrite flat_base by (vm_compute; lia). reflexivity.
Qed.
Lemma case_inside : inside 0 3 0 4 case_brush.
Proof. unfold inside, in_box, case_brush. rewrite !flat_state by (vm_compute; lia). unfold two_per_radius_states. cbn. lra. Qed.
Definition case_tilt : tilt mixR := mkTilt (M := mixR) (0%R : sng mixR) (90%R : sng mixR) (90%R : sng mixR) (90%R : sng mixR).
Lemma case_sanitise : sanitise mathR case_event = Ok (case_tilt, case_event).
Proof.
  unfold sanitise, read_tilt, truthy, case_event. cbn [ev_x ev_y ev_pressure ev_xtilt ev_ytilt ev_dtime ev_viewzoom ev_viewrotation ev_barrel ev_linear].
  cbn -[IZR Req_bool Rlt_bool Rle_bool Rdiv]. rewrite (Req_bool_true 0 0) by reflexivity. cbn [negb orb obind]. cbn -[IZR Req_bool Rlt_bool Rle_bool Rdiv].
  rewrite (Rle_bool_false 1 0), (Rle_bool_false (1 / 10) 0) by lra. rewrite !(Rlt_bool_false 10000000000), !(Rlt_bool_false _ (-10000000000)) by lra. cbn [orb].
  cbn -[IZR Req_bool Rlt_bool Rle_bool Rdiv]. rewrite !Rlt_bool_true by lra. reflexivity.
Qed.
Example C45_case : exists a b' w', stroke_to mathR 200 case_brush worldR case_event = Ok (Some (a, b', w')) /\ inside 0 3 0 4 b'.
Proof.
  destruct C34_case as (p & a & b' & E1 & E2 & _).
  assert (stroke_to mathR 200 case_brush worldR case_event = Ok (Some (a, b', p_world p))) as R.
  { unfold stroke_to. rewrite case_sanitise. cbn [obind].
    assert (nlt (dec 100 1000) (ev_dtime case_event) = false) as -> by (cbn -[IZR Rdiv]; apply Rlt_bool_false; lra). cbn [andb].
    unfold stroke_rest, skip_input. assert (nlt (dec 1 1000) (wid (b_skip case_brush)) = false) as -> by (cbn -[IZR Rdiv]; apply Rlt_bool_false; lra).
    rewrite (track_plain mathR case_brush (ev_x case_event) (ev_y case_event) (ev_dtime case_event)).
    - cbn [obind]. assert (nlt (nofZ 5) (ev_dtime case_event) = false) as -> by (cbn -[IZR Rdiv]; apply Rlt_bool_false; lra). change (b_reset case_brush) with false. cbn [orb].
      change (mkTarget (ev_x case_event) (ev_y case_event) (ev_pressure case_event) case_tilt (ev_viewzoom case_event) (ev_viewrotation case_event) (ev_barrel case_event) (ev_linear case_event)) with case_target.
      unfold paint_to. match goal with |- obind ?q _ = _ => assert (q = Ok (Some p)) as -> by exact E1 end. cbn [obind].
      match goal with |- obind ?q _ = _ => assert (q = Ok (a, b')) as -> by exact E2 end. reflexivity.
    - exact (proj1 (proj2 (proj2 case_tame))).
    - unfold case_brush. rewrite flat_base by (vm_compute; lia). unfold two_per_radius. cbn. lra. }
  exists a, b', (p_world p). split; [exact R|].
  apply (C45_hull mathR mathR_ok 0 3 0 4 200 [case_event] case_brush b' worldR (p_world p) case_tame case_inside); [constructor; [exact case_event_in|constructor]|].
  cbn [ofold]. rewrite R. reflexivity.
Qed.

Print Assumptions C45_factor.
Print Assumptions C45_between.
Print Assumptions C45_tracking.
Print Assumptions C45_hull.
