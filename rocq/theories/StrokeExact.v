(** The motion of the brush during an event, in exact real arithmetic: dabs,
    time and position are all accounted for. *)
From Verif Require Import Base F32 Arith Color Mapping P_Mapping Settings Spectral Brush BrushProofs StepFacts.
From Coq Require Import Reals Lra Sorted.
From Flocq Require Import Core.Core.
Local Open Scope Z_scope.

(** The C library in exact arithmetic (only what is needed). *)
Record real_library (L : mathlib mixR) : Prop := {
  rl_exp : forall x : R, expf_ L x = exp x :> R;
  rl_neg : forall x : R, negf_ L x = (- x)%R :> R;
  rl_hypot : forall x y : R, hypotf_ L x y = sqrt (x * x + y * y) :> R;
  rl_sqrt : forall x : R, sqrt_ L x = sqrt x :> R;
  rl_cos : forall x : R, cos_ L x = cos x :> R;
  rl_sin : forall x : R, sin_ L x = sin x :> R;
  rl_nan : forall x : R, nanf_ L x = false;
  rl_finite : forall x : R, finitef_ L x = true }.

Section Exact.
  Context (L : mathlib mixR) {E : env mixR}.
  Notation brush := (brush E).
  Local Open Scope R_scope.

  Definition stR (b : brush) (i : nat) : R := st b i.
  (** the pen is at the fraction [l] of the way from (x0, y0) to (x1, y1) *)
  Definition on_way (x0 y0 x1 y1 : R) (l : R) (b : brush) : Prop :=
    stR b STATE_X = x0 + l * (x1 - x0) /\ stR b STATE_Y = y0 + l * (y1 - y0).
  Definition total (f : step mixR -> R) (log : list (step mixR * brush)) : R := fold_right (fun e a => f (fst e) + a) 0 log.
  Definition ddab (p : step mixR) : R := sp_ddab p.
  Definition dtime (p : step mixR) : R := sp_dtime p.

  Record walked (x0 y0 m0 t0 lam : R) (g : target mixR) (p : progress E) : Prop := {
    wk_states : has_states (p_brush p);
    wk_moved : 0 <= (p_moved p : R) < 1;
    wk_todo : 0 <= (p_todo p : R);
    wk_count : INR (length (p_log p)) + (p_moved p : R) = m0 + total ddab (p_log p);
    wk_time : total dtime (p_log p) + (p_left p : R) = t0;
    wk_ddab : Forall (fun e => 0 < ddab (fst e) <= 1) (p_log p);
    wk_dtime : 0 <= t0 -> Forall (fun e => 0 <= dtime (fst e)) (p_log p) /\ 0 <= (p_left p : R);
    wk_way : exists ls, 0 <= lam <= 1 /\ on_way x0 y0 (g_x g) (g_y g) lam (p_brush p) /\ (p_left p : R) = (1 - lam) * t0 /\
      Forall2 (fun l e => on_way x0 y0 (g_x g) (g_y g) l (snd e)) ls (p_log p) /\ Sorted (fun a b => b <= a) (lam :: ls) /\ Forall (fun l => 0 <= l <= 1) ls }.

  Lemma count_facts : forall (b : brush) x y t n b', has_states b -> count_dabs_to L b x y t = (n, b') ->
    0 <= (n : R) /\ has_states b' /\ forall i, i <> STATE_ACTUAL_RADIUS -> st b' i = st b i.
  Proof.
    intros b x y t n b' Hs H. assert (n = fst (count_dabs_to L b x y t) /\ b' = snd (count_dabs_to L b x y t)) as [-> ->] by (rewrite H; auto). clear H.
    unfold count_dabs_to. cbv zeta. cbn [fst snd]. split.
    - match goal with |- context [nanf_ L ?e || _] => generalize e end. intros v. destruct (nanf_ L v); cbn [orb]; [cbn; lra|].
      change (0 <= (if Rlt_bool v 0 then 0 else v)). destruct (Rlt_bool_spec v 0); lra.
    - match goal with |- context [if ?c then set_st _ _ _ else _] => destruct c end; split; auto; [apply has_set; auto|intros i Hi; apply st_set_other; auto].
  Qed.
  Lemma drawn_states : forall (b : brush) w l pn b' w', has_states b -> prepare_and_draw_dab L b w l = Ok (pn, b', w') ->
    has_states b' /\ forall i, (i < 5 \/ 13 < i)%nat -> st b' i = st b i.
  Proof.
    intros b w l pn b' w' Hs H. apply prepare_frame in H. destruct H as (_ & Es & _). destruct (Es Hs) as [A B]. split; [exact A|].
    intros i Hi. unfold st. apply B. exact Hi.
  Qed.

  (** states outside the smudge colour, other than the turn of the flip-flop *)
  Definition same_states_but_flip (b b' : brush) : Prop := forall i, (i < 5 \/ 13 < i)%nat -> i <> STATE_FLIP -> st b' i = st b i.
  Lemma one_dab_walks : forall x0 y0 m0 t0 lam g p p', walked x0 y0 m0 t0 lam g p -> pending p = true -> one_dab L g p = Ok p' ->
    exists (dd lam' : R) (sp : step mixR) b1 b2,
      0 < dd <= p_todo p /\ lam' = lam + dd / p_todo p * (1 - lam) /\ walked x0 y0 m0 t0 lam' g p' /\
      p_log p' = (sp, b1) :: p_log p /\ ddab sp = dd /\ update_states L (p_brush p) sp = Ok b1 /\
      has_states b2 /\ same_states_but_flip b1 b2 /\ b_settings b2 = b_settings (p_brush p) /\
      count_dabs_to L b2 (g_x g) (g_y g) (p_left p') = (p_todo p', p_brush p').
  Proof.
    intros x0 y0 m0 t0 lam g p p' [Hs Hm Ht Hc Htm Hd Hdt (ls & Hl & (Hx & Hy) & Hleft & F2 & So & Fl)] Pe O.
    unfold pending in Pe. cbn [mixR wid nle nofZ sng dbl numR car nadd] in Pe. destruct (Rle_bool_spec 1 (p_moved p + p_todo p)) as [Q|Q]; [clear Pe|discriminate].
    unfold one_dab in O. cbv zeta in O.
    assert (exists dd : R, (if nlt (nofZ 0) (p_moved p) then (nar (nsub (nofZ 1) (wid (p_moved p))), nofZ 0) else (nofZ 1, p_moved p)) = ((dd : sng mixR), (0 : sng mixR)) /\
      dd = 1 - p_moved p /\ 0 < dd <= 1 /\ dd <= p_todo p) as (dd & Ed & Vd & Bd & Bt).
    { cbn [mixR wid nar nlt nofZ sng dbl numR car nsub]. destruct (Rlt_bool_spec 0 (p_moved p)) as [K|K].
      - exists (1 - p_moved p). repeat split; lra.
      - assert (p_moved p = 0 :> R) as Z by lra. exists 1. rewrite Z in Q |- *. repeat split; lra. }
    rewrite Ed in O. set (frac := ndiv (dd : sng mixR) (p_todo p)) in O. assert (frac = dd / p_todo p :> R) as Vf by reflexivity.
    assert (0 < dd / p_todo p <= 1) as Bf.
    { split; [apply Rdiv_lt_0_compat; lra|]. apply Rmult_le_reg_r with (p_todo p); [lra|]. unfold Rdiv. rewrite Rmult_assoc, Rinv_l by lra. lra. }
    apply obind_ok in O. destruct O as (b1 & E1 & O). apply obind_ok in O. destruct O as (((pn, b2), w2) & E2 & O).
    apply obind_ok in O. destruct O as ((r, rg) & _ & O). destruct (count_dabs_to L _ _ _ _) as [todo b3] eqn:E3. injection O as <-.
    destruct (update_facts L _ _ _ Hs E1) as (b0 & (A1 & A2 & A3 & _) & (B1 & B2 & _) & _).
    assert (stR b1 STATE_X = stR (p_brush p) STATE_X + frac * (g_x g - stR (p_brush p) STATE_X)) as X1.
    { inversion B2 as [|? ? C1 B2']; subst. unfold stR. rewrite C1, A2. reflexivity. }
    assert (stR b1 STATE_Y = stR (p_brush p) STATE_Y + frac * (g_y g - stR (p_brush p) STATE_Y)) as Y1.
    { inversion B2 as [|? ? C1 B2']; subst. inversion B2' as [|? ? C2 _]; subst. unfold stR. rewrite C2, A3. reflexivity. }
    pose proof E2 as Ep. apply drawn_states in E2; [|apply has_set; exact B1]. destruct E2 as [D1 D2].
    pose proof E3 as Ec. apply count_facts in E3; [|exact D1]. destruct E3 as (T1 & T2 & T3).
    assert (stR b3 STATE_X = stR b1 STATE_X /\ stR b3 STATE_Y = stR b1 STATE_Y) as [X3 Y3].
    { unfold stR. rewrite !T3 by discriminate. change (st (with_random (with_rng b2 rg) r) STATE_X) with (st b2 STATE_X). change (st (with_random (with_rng b2 rg) r) STATE_Y) with (st b2 STATE_Y).
      rewrite !D2 by (vm_compute; lia). rewrite !st_set_other by discriminate. auto. }
    set (lam' := lam + frac * (1 - lam)).
    assert (on_way x0 y0 (g_x g) (g_y g) lam' b1) as W1. { split; [rewrite X1, Hx|rewrite Y1, Hy]; unfold lam'; ring. }
    assert (lam <= lam' <= 1) as Bl. { unfold lam'. rewrite Vf. split; [|assert (0 <= (1 - dd / p_todo p) * (1 - lam)) by (apply Rmult_le_pos; lra); lra]. assert (0 <= dd / p_todo p * (1 - lam)) by (apply Rmult_le_pos; lra). lra. }
    exists dd, lam'. eexists. exists b1, (with_random (with_rng b2 rg) r).
    split; [lra|]. split; [reflexivity|]. split; [|split; [reflexivity|split; [reflexivity|split; [exact E1|split; [exact D1|split; [|split; [|exact Ec]]]]]]].
    2:{ intros i Hi Hf. change (st (with_random (with_rng b2 rg) r) i) with (st b2 i). rewrite D2 by exact Hi. apply st_set_other. auto. }
    2:{ change (b_settings (with_random (with_rng b2 rg) r)) with (b_settings b2). apply prepare_frame in Ep. destruct Ep as (-> & _). destruct (update_facts L _ _ _ Hs E1) as (_ & _ & _ & _ & _ & Es & _). exact Es. }
    constructor; cbn [p_brush p_moved p_todo p_log p_left length].
    - exact T2.
    - lra.
    - exact T1.
    - rewrite S_INR. cbn [total fold_right fst]. fold (total ddab (p_log p)). unfold ddab at 1. cbn [step_towards sp_ddab]. lra.
    - cbn [total fold_right fst]. fold (total dtime (p_log p)). unfold dtime at 1. cbn [step_towards sp_dtime]. cbn [mixR wid nar nmul nsub nofZ sng dbl numR car]. lra.
    - constructor; [|exact Hd]. exact Bd.
    - intros T0. destruct (Hdt T0) as [G1 G2]. assert (0 <= frac * (p_left p - 0) <= p_left p) as Bq.
      { rewrite Rminus_0_r, Vf. split; [apply Rmult_le_pos; lra|]. rewrite <- (Rmult_1_l (p_left p)) at 2. apply Rmult_le_compat_r; lra. }
      split; [constructor; [exact (proj1 Bq)|exact G1]|]. cbn [mixR wid nar nmul nsub nofZ sng dbl numR car]. lra.
    - exists (lam' :: ls). split; [lra|]. split; [destruct W1; split; congruence|].
      split; [cbn [mixR wid nar nmul nsub nofZ sng dbl numR car]; unfold lam'; rewrite Hleft; ring|]. split; [constructor; [exact W1|exact F2]|].
      split; [|constructor; [lra|exact Fl]]. constructor; [|constructor; lra]. inversion So as [|? ? So' Hh]; subst. constructor; [exact So'|]. destruct Hh; constructor. lra.
  Qed.

  Lemma dabs_walk : forall n x0 y0 m0 t0 lam g p p', walked x0 y0 m0 t0 lam g p -> dabs L n g p = Ok (Some p') -> exists lam', walked x0 y0 m0 t0 lam' g p' /\ pending p' = false.
  Proof.
    induction n as [|n IH]; intros x0 y0 m0 t0 lam g p p' W H; cbn [dabs] in H; destruct (pending p) eqn:Pe; try discriminate.
    - injection H as <-. eauto.
    - apply obind_ok in H. destruct H as (p1 & E1 & H). destruct (one_dab_walks _ _ _ _ _ _ _ _ W Pe E1) as (dd & lam' & sp & b1 & b2 & _ & _ & W' & _). eapply IH; eauto.
    - injection H as <-. eauto.
  Qed.
  Lemma start_walk : forall (b : brush) (w : world E) (g : target mixR) (t : R) todo b1, has_states b -> 0 <= stR b STATE_PARTIAL_DABS < 1 ->
    count_dabs_to L b (g_x g) (g_y g) (t : sng mixR) = (todo, b1) ->
    walked (stR b STATE_X) (stR b STATE_Y) (stR b STATE_PARTIAL_DABS) t 0 g (mkProgress b1 w None (t : dbl mixR) (st b STATE_PARTIAL_DABS) todo []).
  Proof.
    intros b w g t todo b1 Hs Hm Ec. apply count_facts in Ec; auto. destruct Ec as (T1 & T2 & T3).
    constructor; cbn [p_brush p_moved p_todo p_log p_left length]; auto.
    - cbn. unfold stR. lra.
    - cbn. lra.
    - exists []. split; [lra|]. split; [split; unfold stR; rewrite T3 by discriminate; lra|]. split; [lra|]. split; [constructor|]. split; [repeat constructor|constructor].
  Qed.
  Lemma paint_walk : forall n (b : brush) w g (t : R) p, has_states b -> 0 <= stR b STATE_PARTIAL_DABS < 1 -> paint_dabs L n b w g (t : dbl mixR) = Ok (Some p) ->
    exists lam, walked (stR b STATE_X) (stR b STATE_Y) (stR b STATE_PARTIAL_DABS) t lam g p /\ (p_moved p : R) + p_todo p < 1.
  Proof.
    intros n b w g t p Hs Hm H. unfold paint_dabs in H. cbv zeta in H. destruct (count_dabs_to _ _ _ _ _) as [todo b1] eqn:Ec.
    apply (dabs_walk _ (stR b STATE_X) (stR b STATE_Y) (stR b STATE_PARTIAL_DABS) t 0) in H; [|eapply start_walk; eauto]. destruct H as (lam & W & Pe). exists lam. split; [exact W|].
    unfold pending in Pe. cbn [mixR wid nle nofZ sng dbl numR car nadd] in Pe. destruct (Rle_bool_spec 1 (p_moved p + p_todo p)); [discriminate|auto].
  Qed.
  (** the rest of the way *)
  Lemma rest_walk : forall (p : progress E) g (t : R) a b', has_states (p_brush p) -> paint_rest L p g (t : dbl mixR) = Ok (a, b') ->
    has_states b' /\ stR b' STATE_X = g_x g /\ stR b' STATE_Y = g_y g /\ stR b' STATE_PARTIAL_DABS = (p_moved p : R) + p_todo p.
  Proof.
    intros p g t a b' Hs H. unfold paint_rest in H. apply obind_ok in H. destruct H as (b1 & E1 & H). cbv zeta in H. apply Ok_inj in H.
    destruct (update_facts L _ _ _ Hs E1) as (b0 & (A1 & A2 & A3 & _) & (B1 & B2 & _) & _).
    assert (stR b1 STATE_X = g_x g) as X1.
    { inversion B2 as [|? ? C1 B2']; subst. unfold stR. rewrite C1, A2. cbn [last_step step_towards sp_dx mixR nadd nsub sng numR car]. lra. }
    assert (stR b1 STATE_Y = g_y g) as Y1.
    { inversion B2 as [|? ? C1 B2']; subst. inversion B2' as [|? ? C2 _]; subst. unfold stR. rewrite C2, A3. cbn [last_step step_towards sp_dy mixR nadd nsub sng numR car]. lra. }
    set (b2 := set_st b1 STATE_PARTIAL_DABS (nadd (p_moved p) (p_todo p))) in H.
    assert (has_states b2 /\ stR b2 STATE_X = g_x g /\ stR b2 STATE_Y = g_y g /\ stR b2 STATE_PARTIAL_DABS = (p_moved p : R) + p_todo p) as K.
    { unfold b2, stR. split; [apply has_set; exact B1|]. rewrite st_set_same by (auto; vm_compute; lia). rewrite !st_set_other by discriminate. auto. }
    clearbody b2. unfold stroke_split in H. cbv zeta in H. revert H.
    generalize (match p_painted p with Some v => v | None => negb (nlt (nofZ 0) (b_idling b2) || neqb (b_painting b2) (nofZ 0)) end).
    intros [|] H; [injection H as _ <-; exact K|]. match type of H with (if ?c then _ else _) = _ => destruct c end; injection H as _ <-; exact K.
  Qed.


  (** *** the demand for dabs *)
  Definition length_of (ratio angle dx dy : R) : R :=
    if Rlt_bool 1 ratio then
      let a := angle * m_pi L / 180 in
      sqrt ((dy * cos a - dx * sin a) * ratio * ((dy * cos a - dx * sin a) * ratio) + (dy * sin a + dx * cos a) * (dy * sin a + dx * cos a))
    else sqrt (dx * dx + dy * dy).
  Definition demand (dpa dpb dps r r0 ratio angle dx dy t : R) : R :=
    length_of ratio angle dx dy / r * dpa + length_of ratio angle dx dy / r0 * dpb + t * dps.
  Definition base_radius (b : brush) : R := clamp_radius (expf_ L (base b SET_RADIUS_LOGARITHMIC)).
  Definition radius_now (b : brush) : R := if Req_bool (stR b STATE_ACTUAL_RADIUS) 0 then base_radius b else stR b STATE_ACTUAL_RADIUS.
  Definition demand_at (b : brush) (x y t : R) : R :=
    demand (stR b STATE_DABS_PER_ACTUAL_RADIUS) (stR b STATE_DABS_PER_BASIC_RADIUS) (stR b STATE_DABS_PER_SECOND) (radius_now b) (base_radius b)
      (stR b STATE_ACTUAL_ELLIPTICAL_DAB_RATIO) (stR b STATE_ACTUAL_ELLIPTICAL_DAB_ANGLE) (x - stR b STATE_X) (y - stR b STATE_Y) t.

  Context (RL : real_library L).
  Lemma count_demand : forall (b : brush) (x y t : R) n b', has_states b -> count_dabs_to L b x y t = (n, b') ->
    (n : R) = Rmax 0 (demand_at b x y t) /\ stR b' STATE_ACTUAL_RADIUS = radius_now b /\ b_settings b' = b_settings b.
  Proof.
    intros b x y t n b' Hs H. assert (n = fst (count_dabs_to L b x y t) /\ b' = snd (count_dabs_to L b x y t)) as [-> ->] by (rewrite H; auto). clear H.
    unfold count_dabs_to. cbv zeta. cbn [fst snd].
    set (b2 := if neqb (wid (st b STATE_ACTUAL_RADIUS)) (nofZ 0) then set_st b STATE_ACTUAL_RADIUS (clamp_radius (expf_ L (base b SET_RADIUS_LOGARITHMIC))) else b).
    assert (stR b2 STATE_ACTUAL_RADIUS = radius_now b /\ b_settings b2 = b_settings b /\ forall i, i <> STATE_ACTUAL_RADIUS -> stR b2 i = stR b i) as (R2 & S2 & O2).
    { unfold b2, radius_now, stR. change (neqb (wid (st b STATE_ACTUAL_RADIUS)) (nofZ 0)) with (Req_bool (st b STATE_ACTUAL_RADIUS) 0).
      destruct (Req_bool (st b STATE_ACTUAL_RADIUS) 0); [|auto]. split; [exact (st_set_same b STATE_ACTUAL_RADIUS _ Hs ltac:(vm_compute; lia))|]. split; [reflexivity|]. intros i Hi. exact (st_set_other b _ i _ (not_eq_sym Hi)). }
    split; [|auto]. clearbody b2. rewrite (rl_nan L RL). cbn [orb].
    set (q := demand_at b x y t).
    match goal with |- (if nlt (wid ?v) _ then _ else _) = _ => assert (v = q) as -> end.
    2:{ cbn [mixR wid nlt nofZ sng dbl numR car]. unfold Rmax. destruct (Rlt_bool_spec q 0); destruct (Rle_dec 0 q); lra. }
    unfold q, demand_at, demand, length_of. cbn [mixR wid nar nlt nofZ sng dbl numR car nadd nsub nmul ndiv]. unfold radians. cbn [mixR wid nar nlt nofZ sng dbl numR car nadd nsub nmul ndiv].
    rewrite (rl_hypot L RL), (rl_sqrt L RL), (rl_cos L RL), (rl_sin L RL). unfold stR in O2, R2 |- *. rewrite R2, !O2 by discriminate. reflexivity.
  Qed.

  Lemma sqrt_scale : forall k v, 0 <= k -> sqrt (k * k * v) = k * sqrt v.
  Proof. intros k v Hk. rewrite sqrt_mult_alt by (apply Rmult_le_pos; auto). rewrite sqrt_square by auto. reflexivity. Qed.
  Lemma length_scale : forall ratio angle dx dy k, 0 <= k -> length_of ratio angle (k * dx) (k * dy) = k * length_of ratio angle dx dy.
  Proof.
    intros ratio angle dx dy k Hk. unfold length_of. destruct (Rlt_bool 1 ratio); cbv zeta; rewrite <- sqrt_scale by auto; f_equal; ring.
  Qed.
  Lemma demand_scale : forall dpa dpb dps r r0 ratio angle dx dy t k, 0 <= k ->
    demand dpa dpb dps r r0 ratio angle (k * dx) (k * dy) (k * t) = k * demand dpa dpb dps r r0 ratio angle dx dy t.
  Proof. intros. unfold demand. rewrite length_scale by auto. unfold Rdiv. ring. Qed.

  (** a bound on the density bounds the number of dabs *)
  Lemma dabs_bounded : forall (I : brush -> Prop) (C x0 y0 m0 t0 : R) (g : target mixR), 0 <= C ->
    (forall b sp b1 b2, I b -> update_states L b sp = Ok b1 -> has_states b -> has_states b2 -> same_states_but_flip b1 b2 -> b_settings b2 = b_settings b -> I b2) ->
    (forall b x y t n b', I b -> has_states b -> count_dabs_to L b x y t = (n, b') -> I b') ->
    (forall b l n b', I b -> has_states b -> 0 <= l <= 1 -> on_way x0 y0 (g_x g) (g_y g) l b -> count_dabs_to L b (g_x g) (g_y g) (((1 - l) * t0 : R) : sng mixR) = (n, b') -> (n : R) <= (1 - l) * C) ->
    forall k lam p, walked x0 y0 m0 t0 lam g p -> I (p_brush p) -> total ddab (p_log p) <= lam * C -> (p_todo p : R) <= (1 - lam) * C ->
    dabs L k g p = Ok None -> INR k + INR (length (p_log p)) <= m0 + C.
  Proof.
    intros I C x0 y0 m0 t0 g HC Iu Ic Ib. induction k as [|k IH]; intros lam p W Hi Ht Hd H; cbn [dabs] in H; destruct (pending p) eqn:Pe; try discriminate.
    - destruct W as [_ Wm _ Wc _ _ _ (ls & Wl & _)]. cbn [INR]. assert (lam * C <= 1 * C) by (apply Rmult_le_compat_r; lra). lra.
    - apply obind_ok in H. destruct H as (p1 & E1 & H). destruct (one_dab_walks _ _ _ _ _ _ _ _ W Pe E1) as (dd & lam' & sp & b1 & b2 & Bd & El & W' & Lg & Dd & U & H2 & Sm & Es & Cn).
      destruct W as [Ws Wm Wt Wc Wtm Wd Wdt (ls & Wl & Wo & Wleft & _)].
      assert (I b2) as I2 by (eapply Iu; eauto). assert (I (p_brush p1)) as I1 by (eapply Ic; eauto).
      assert (dd <= dd / p_todo p * (1 - lam) * C) as K.
      { assert (0 < / p_todo p) by (apply Rinv_0_lt_compat; lra). unfold Rdiv. replace (dd * / p_todo p * (1 - lam) * C) with (dd * / p_todo p * ((1 - lam) * C)) by ring.
        replace dd with (dd * / p_todo p * p_todo p) at 1 by (field; lra). apply Rmult_le_compat_l; [apply Rmult_le_pos; lra|exact Hd]. }
      assert (INR k + INR (length (p_log p1)) <= m0 + C) as A.
      { apply (IH lam' p1 W' I1).
        - rewrite Lg. cbn [total fold_right fst]. fold (total ddab (p_log p)). rewrite Dd, El. lra.
        - destruct W' as [Ws' _ _ _ _ _ _ (ls' & Wl' & Wo' & Wleft' & _)]. rewrite Wleft' in Cn.
          refine (Ib b2 lam' _ _ I2 H2 Wl' _ Cn). destruct (count_facts _ _ _ _ _ _ H2 Cn) as (_ & _ & O). unfold on_way, stR in *. rewrite <- (O STATE_X), <- (O STATE_Y) by discriminate. exact Wo'.
        - exact H. }
      rewrite Lg in A. cbn [length] in A. rewrite S_INR in A |- *. lra.
  Qed.

  (** a constant density makes the number of dabs exact *)
  Lemma dabs_exact : forall (I : brush -> Prop) (C x0 y0 m0 t0 : R) (g : target mixR),
    (forall b sp b1 b2, I b -> update_states L b sp = Ok b1 -> has_states b -> has_states b2 -> same_states_but_flip b1 b2 -> b_settings b2 = b_settings b -> I b2) ->
    (forall b x y t n b', I b -> has_states b -> count_dabs_to L b x y t = (n, b') -> I b') ->
    (forall b l n b', I b -> has_states b -> 0 <= l <= 1 -> on_way x0 y0 (g_x g) (g_y g) l b -> count_dabs_to L b (g_x g) (g_y g) (((1 - l) * t0 : R) : sng mixR) = (n, b') -> (n : R) = (1 - l) * C) ->
    forall k lam p p', walked x0 y0 m0 t0 lam g p -> I (p_brush p) -> total ddab (p_log p) = lam * C -> (p_todo p : R) = (1 - lam) * C ->
    dabs L k g p = Ok (Some p') -> INR (length (p_log p')) + (p_moved p' : R) + p_todo p' = m0 + C /\ I (p_brush p').
  Proof.
    intros I C x0 y0 m0 t0 g Iu Ic Ib. induction k as [|k IH]; intros lam p p' W Hi Ht Hd H; cbn [dabs] in H; destruct (pending p) eqn:Pe; try discriminate.
    - injection H as <-. destruct W as [_ Wm _ Wc _ _ _ _]. split; [lra|auto].
    - apply obind_ok in H. destruct H as (p1 & E1 & H). destruct (one_dab_walks _ _ _ _ _ _ _ _ W Pe E1) as (dd & lam' & sp & b1 & b2 & Bd & El & W' & Lg & Dd & U & H2 & Sm & Es & Cn).
      destruct W as [Ws Wm Wt Wc Wtm Wd Wdt (ls & Wl & Wo & Wleft & _)].
      assert (I b2) as I2 by (eapply Iu; eauto). assert (I (p_brush p1)) as I1 by (eapply Ic; eauto).
      apply (IH lam' p1 p' W' I1); [| |exact H].
      + rewrite Lg. cbn [total fold_right fst]. fold (total ddab (p_log p)). rewrite Dd, El, Ht.
        assert (dd / p_todo p * (1 - lam) * C = dd) as K. { rewrite Rmult_assoc, <- Hd. field. lra. } lra.
      + destruct W' as [Ws' _ _ _ _ _ _ (ls' & Wl' & Wo' & Wleft' & _)]. rewrite Wleft' in Cn.
        refine (Ib b2 lam' _ _ I2 H2 Wl' _ Cn). destruct (count_facts _ _ _ _ _ _ H2 Cn) as (_ & _ & O). unfold on_way, stR in *. rewrite <- (O STATE_X), <- (O STATE_Y) by discriminate. exact Wo'.
    - injection H as <-. destruct W as [_ Wm _ Wc _ _ _ _]. split; [lra|auto].
  Qed.
End Exact.
