(** Property C37 in exact real arithmetic: the limits of the dabs, anti-aliasing
    and snapping to pixels included, and how far from the events a dab can lie. *)
From Verif Require Import Base F32 F32Proofs Arith Color Mapping P_Mapping Settings Spectral Brush BrushProofs BrushInst ReturnProofs StepFacts StrokeExact RealToy P_Reset DabFrame P_Spacing P_Filter DabSeen P_Limits.
From Coq Require Import Reals Lra.
From Flocq Require Import Core.Core.
Local Open Scope Z_scope.

Section Exact.
  Context (L : mathlib mixR) (RL : real_library L) (RR : forall x : R, (Rabs ((roundf_ L x : R) - x) <= 1 / 2)%R) {E : env mixR}.
  Notation brush := (brush E).
  Local Open Scope R_scope.

  (** setting [i] of the brush never exceeds [K], whatever the inputs *)
  Definition at_most (K : R) (b : brush) (i : nat) : Prop :=
    forall inputs vs, calculate_all (b_settings b) inputs = Ok vs -> (nth i vs (0 : sng mixR) : R) <= K.

  Lemma clamp01_R : forall v : R, 0 <= (clamp01 mixR v : R) <= 1.
  Proof.
    intros v. unfold clamp01. cbn [mixR nlt nofZ sng numR car]. destruct (Rlt_bool_spec 1 v); [lra|]. destruct (Rlt_bool_spec v 0); lra.
  Qed.
  Lemma anti_alias_R : forall K r h m : R, 2 / 10 <= r <= 1000 -> 0 <= h <= 1 -> 0 <= K -> m <= K ->
    2 / 10 <= (fst (anti_alias (M := mixR) (r : sng mixR) (h : sng mixR) (m : sng mixR)) : R) <= 1000 + K / 2.
  Proof.
    intros K r h m Hr Hh HK Hm. unfold anti_alias. cbv zeta. cbn [mixR wid nar nlt nofZ nmul nsub nadd ndiv sng dbl numR car].
    destruct (Rlt_bool_spec (r * (1 - h)) m) as [C|C]; cbn [fst]; [|lra].
    assert (0 <= r * (1 - h)) by (apply Rmult_le_pos; lra). set (o := r - (1 - h) * r / 2).
    assert (o = r * (1 + h) / 2) as Eo by (unfold o; field). assert (0 <= r * h <= r) by nra.
    assert (0 < o <= 1000) by lra. assert (m / (1 - (o - m / 2) / (o + m / 2)) = o + m / 2) as -> by (field; lra). nra.
  Qed.
  Lemma snap_R : forall A x y r s : R, 2 / 10 <= r <= A -> 1000 <= A -> s <= 1 ->
    let '(x', y', r') := snap_pixel L (x : sng mixR) (y : sng mixR) (r : sng mixR) (s : sng mixR) in
    2 / 10 <= (r' : R) <= A + 1 / 4 /\ Rabs ((x' : R) - x) <= 1 / 2 /\ Rabs ((y' : R) - y) <= 1 / 2.
  Proof.
    intros A x y r s Hr HA Hs. unfold snap_pixel. cbn [mixR wid nar nlt nofZ nmul nsub nadd ndiv sng dbl numR car dec flo].
    destruct (Rlt_bool_spec 0 s) as [C|C].
    2: { rewrite !Rminus_eq_0, Rabs_R0. lra. }
    assert (forall v, Rabs (v + (IZR (Zfloor v) + 1 / 2 - v) * s - v) <= 1 / 2) as K.
    { intros v. pose proof (Zfloor_lb v). pose proof (Zfloor_ub v). set (f := IZR (Zfloor v)) in *. apply Rabs_le.
      assert (- (1 / 2) <= (f + 1 / 2 - v) * s <= 1 / 2); [|lra]. assert (- (1/2) <= f + 1/2 - v <= 1/2) by lra. nra. }
    pose proof (RR (r * 2)) as Hq. set (q := (roundf_ L (r * 2 : sng mixR) : R)) in *. apply Rabs_le_inv in Hq. change (roundf_ L (r * 2)) with q.
    set (sr := if Rlt_bool (q / 2) (1 / 2) then 1 / 2 else q / 2).
    assert (1 / 2 <= sr <= A + 1 / 4) as Hsr. { unfold sr. destruct (Rlt_bool_spec (q / 2) (1 / 2)); lra. }
    set (sr2 := if Rlt_bool (9999 / 10000) s then sr - 1 / 10000 else sr).
    assert (2 / 10 <= sr2 <= A + 1 / 4) as Hs2. { unfold sr2. destruct (Rlt_bool (9999 / 10000) s); lra. }
    split; [|split; apply K]. assert (r + (sr2 - r) * s = (1 - s) * r + s * sr2) as -> by ring. nra.
  Qed.

  Lemma radius_R : forall (b b1 : brush) d, stepped L (b_settings b) b1 -> made L (E := E) (flipped b1) d ->
    exists x y r : R, 2 / 10 <= r <= 1000 /\ (exists b2, dab_position L (flipped b1) = Ok ((x : sng mixR), (y : sng mixR), b2)) /\
      (dab_x d, dab_y d, dab_radius d) =
      snap_pixel L (x : sng mixR) (y : sng mixR) (fst (anti_alias (r : sng mixR) (clamp01 mixR (val b1 SET_HARDNESS)) (val b1 SET_ANTI_ALIASING))) (val b1 SET_SNAP_TO_PIXEL).
  Proof.
    intros b b1 d St Md. destruct (stepped_facts L b b1 St) as (_ & _ & _ & (v & Er) & _). apply made_radius in Md. destruct Md as (x & y & r & Hr & Ed & Ep).
    exists x, y, r. split; [|split; [exact Ep|exact Ed]]. destruct Hr as [->|(v' & ->)].
    - rewrite flipped_st by discriminate. rewrite Er. rewrite (clamped_is L RL). apply radius_range.
    - assert ((clamp_radius (M := mixR) (expf_ L v') : R) = Rmin 1000 (Rmax (2 / 10) (exp v'))) as ->; [|apply radius_range].
      unfold clamp_radius. cbn [mixR wid nar nlt nofZ dec sng dbl numR car]. rewrite (rl_exp L RL). change (ACTUAL_RADIUS_MIN (M := mixR)) with (2 / 10)%R.
      unfold Rmin, Rmax. destruct (Rlt_bool_spec 1000 (exp v')); destruct (Rlt_bool_spec (exp v') (2 / 10)); destruct (Rle_dec (2 / 10) (exp v')); repeat match goal with |- context [Rle_dec ?a ?b] => destruct (Rle_dec a b) end; lra.
  Qed.

  (** Theorem: if anti-aliasing never exceeds [K] pixels and snapping never exceeds 1
      (its documented maximum), every dab has a radius between 0.2 and
      1000 + K/2 + 1/4. *)
  Theorem C37_exact_partial : forall K n (b : brush) w e a b' w', shape b -> 0 <= K -> at_most K b SET_ANTI_ALIASING -> at_most 1 b SET_SNAP_TO_PIXEL ->
    stroke_to L n b w e = Ok (Some (a, b', w')) ->
    exists ds, drew (w_surf w) ds (w_surf w') /\ Forall (fun d : dab mixR => 2 / 10 <= (dab_radius d : R) <= 1000 + K / 2 + 1 / 4) ds.
  Proof.
    intros K n b w e a b' w' Sh HK HA HS H. destruct (stroke_drew L n b w e a b' w' Sh H) as (ds & D & Hd). exists ds. split; [exact D|].
    eapply Forall_impl; [|exact Hd]. intros d (b1 & St & Md). destruct (radius_R b b1 d St Md) as (x & y & r & Hr & _ & Ed).
    destruct (stepped_facts L b b1 St) as (_ & _ & (data & Ev) & _). specialize (HA _ _ Ev). specialize (HS _ _ Ev).
    pose proof (anti_alias_R K r (clamp01 mixR (val b1 SET_HARDNESS)) (val b1 SET_ANTI_ALIASING) Hr (clamp01_R _) HK HA) as B1.
    match type of Ed with _ = snap_pixel _ _ _ ?q _ => set (r1 := q) in * end.
    pose proof (snap_R (1000 + K / 2) x y r1 (val b1 SET_SNAP_TO_PIXEL) B1 ltac:(lra) HS) as B2.
    rewrite <- Ed in B2. apply B2.
  Qed.

  (** *** Where dabs can lie *)
  Context (xlo xhi ylo yhi : R).
  Notation inside := (inside xlo xhi ylo yhi).
  Notation in_box := (in_box xlo xhi ylo yhi).

  Lemma rest_dabs : forall n (b : brush) w t (e : event mixR) a b' w', shape b -> tame b -> 0 <= (ev_dtime e : R) ->
    inside b -> in_box (ev_x e) (ev_y e) -> stroke_rest L n b w t e = Ok (Some (a, b', w')) ->
    exists ds, drew (w_surf w) ds (w_surf w') /\ Forall (fun d => exists b1, inside b1 /\ stepped L (b_settings b) b1 /\ made L (E := E) (flipped b1) d) ds.
  Proof.
    intros n b w t e a b' w' Sh (Hs & Hr & Hn & Hk) Ht Hi He O.
    unfold stroke_rest in O. destruct (skip_input _ _ _ _ _) as [b1 go] eqn:E1. destruct (skip_times _ _ _ _ _ _ _ Ht Hk E1) as [Hk1 Hgo]. apply skip_fields in E1.
    assert (shape b1 /\ b_settings b1 = b_settings b /\ inside b1 /\ has_states b1 /\ 0 <= remainder b1 < 1 /\ (base b1 SET_TRACKING_NOISE : R) = 0) as (Sh1 & Es1 & Hi1 & Hs1 & Hr1 & Hn1).
    { rewrite E1. exact (conj Sh (conj eq_refl (conj Hi (conj Hs (conj Hr Hn))))). } clear E1.
    assert (forall w0 : world E, exists ds, drew (w_surf w0) ds (w_surf w0) /\ Forall (fun d => exists b1, inside b1 /\ stepped L (b_settings b) b1 /\ made L (E := E) (flipped b1) d) ds) as NONE.
    { intros w0. exists []. split; [apply drew_none|constructor]. }
    destruct go as [dt|]; [|apply Ok_inj in O; injection O as _ _ <-; apply NONE]. specialize (Hgo dt eq_refl).
    apply obind_ok in O. destruct O as (((x, y), b2) & E2 & O). destruct (C45_tracking L RL b1 b2 (ev_x e) (ev_y e) dt x y Hn1 Hgo E2) as (X & Y & ->). clear E2.
    assert (in_box x y) as Hxy. { destruct Hi1 as [[A1 A2] _]. destruct He as [A3 A4]. split; [exact (between_in _ _ _ _ _ A1 A3 X)|exact (between_in _ _ _ _ _ A2 A4 Y)]. }
    match type of O with (if ?c then _ else _) = _ => destruct c end.
    - apply obind_ok in O. destruct O as (b3 & E3 & O). apply Ok_inj in O. injection O as _ _ <-. apply NONE.
    - unfold paint_to in O. apply obind_ok in O. destruct O as ([p|] & E3 & O); [|discriminate O]. apply obind_ok in O. destruct O as ((a', b3) & E4 & O). apply Ok_inj in O. injection O as _ _ <-.
      destruct (paint_dabs_drew L _ _ _ _ _ _ Sh1 E3) as (ds & S3 & D3 & M3). rewrite Es1 in S3.
      assert (Forall (fun q => inside (snd q)) (p_log p)) as Ip.
      { unfold paint_dabs in E3. cbv zeta in E3. destruct (count_dabs_to _ _ _ _ _) as [todo b4] eqn:Ec.
        match type of E3 with dabs _ _ ?g _ = _ => pose proof (start_walk L b1 w g dt todo b4 Hs1 Hr1 Ec) as W0;
        destruct (count_facts L _ _ _ _ _ _ Hs1 Ec) as (_ & _ & Oc);
        refine (proj2 (dabs_inside L RL xlo xhi ylo yhi n _ _ _ _ 0 g _ p _ _ W0 _ _ E3)); [apply Hi1|exact Hxy| |constructor] end.
        cbn [p_brush]. unfold P_Filter.inside. rewrite !Oc by discriminate. exact Hi1. }
      exists ds. split; [exact D3|]. eapply Forall_impl; [|exact M3]. intros d (q & I & Hd). rewrite Forall_forall in S3, Ip. exists (snd q). auto.
  Qed.

  Definition nothing (v : R) : Prop := v = 0.
  (** within [m] of the box *)
  Definition around (m : R) (d : dab mixR) : Prop := xlo - m <= (dab_x d : R) <= xhi + m /\ ylo - m <= (dab_y d : R) <= yhi + m.

  Lemma directional_R : forall (b : brush) r fl, -3240 <= (fst (directional_offsets L b r fl) : R) <= 3240 /\ -3240 <= (snd (directional_offsets L b r fl) : R) <= 3240.
  Proof.
    intros b r fl.
    assert (forall v : R, -3240 <= (if Rlt_bool 3240 v then 3240 else if Rlt_bool v (negf_ L (3240 : sng mixR)) then negf_ L (3240 : sng mixR) : R else v) <= 3240) as C.
    { intros v. rewrite (rl_neg L RL). change (-3240 <= (if Rlt_bool 3240 v then 3240 else if Rlt_bool v (- (3240)) then - (3240) else v) <= 3240). destruct (Rlt_bool_spec 3240 v); [lra|]. destruct (Rlt_bool_spec v (- (3240))); lra. }
    assert ((directional_offsets L b r fl = ((0 : sng mixR), (0 : sng mixR))) \/ exists u v : R, directional_offsets L b r fl =
      ((if Rlt_bool 3240 u then 3240 else if Rlt_bool u (negf_ L (3240 : sng mixR)) then negf_ L (3240 : sng mixR) : R else u) : sng mixR,
       (if Rlt_bool 3240 v then 3240 else if Rlt_bool v (negf_ L (3240 : sng mixR)) then negf_ L (3240 : sng mixR) : R else v) : sng mixR)) as [->|(u & v & ->)].
    { unfold directional_offsets. match goal with |- context [negb ?c] => case (negb c) end; [left; reflexivity|right]. eexists _, _. reflexivity. }
    - cbn [fst snd]. lra.
    - cbn [fst snd]. split; apply C.
  Qed.
  Lemma nothing_off : forall v : R, nothing v -> truthy (v : sng mixR) = false.
  Proof. intros v ->. unfold truthy. cbn [mixR neqb nofZ sng numR car]. rewrite Req_bool_true by reflexivity. reflexivity. Qed.

  Lemma made_around : forall (b b1 : brush) d, inside b1 -> stepped L (b_settings b) b1 -> made L (E := E) (flipped b1) d ->
    fixed b SET_OFFSET_BY_SPEED nothing -> fixed b SET_OFFSET_BY_RANDOM nothing -> at_most 1 b SET_SNAP_TO_PIXEL -> around (3240 + 1 / 2) d.
  Proof.
    intros b b1 d (_ & Ix & Iy) St Md HV HR HS. destruct (radius_R b b1 d St Md) as (x & y & r & Hr & (b2 & Ep) & Ed).
    destruct (stepped_facts L b b1 St) as (_ & _ & (data & Ev) & _ & K). specialize (HS _ _ Ev).
    match type of Ed with _ = snap_pixel _ _ _ ?q _ => set (r1 := q) in * end.
    pose proof (anti_alias_R (Rmax 0 (val b1 SET_ANTI_ALIASING)) r (clamp01 mixR (val b1 SET_HARDNESS)) (val b1 SET_ANTI_ALIASING) Hr (clamp01_R _) (Rmax_l _ _) (Rmax_r _ _)) as B1. change (2 / 10 <= (r1 : R) <= 1000 + Rmax 0 (val b1 SET_ANTI_ALIASING) / 2) in B1.
    pose proof (snap_R (1000 + Rmax 0 (val b1 SET_ANTI_ALIASING) / 2) x y r1 (val b1 SET_SNAP_TO_PIXEL) B1 ltac:(pose proof (Rmax_l 0 (val b1 SET_ANTI_ALIASING)); lra) HS) as B2.
    rewrite <- Ed in B2. destruct B2 as (_ & Bx & By). apply Rabs_le_inv in Bx. apply Rabs_le_inv in By.
    unfold dab_position in Ep. cbv zeta in Ep. apply obind_ok in Ep. destruct Ep as (fl & _ & Ep). rewrite !flipped_val in Ep.
    rewrite (nothing_off _ (K _ _ HR)), (nothing_off _ (K _ _ HV)) in Ep. apply Ok_inj in Ep.
    pose proof (directional_R (flipped b1) (expf_ L (base (flipped b1) SET_RADIUS_LOGARITHMIC)) fl) as (O1 & O2). rewrite !flipped_st in Ep by discriminate.
    assert (x = (st b1 STATE_ACTUAL_X : R) + fst (directional_offsets L (flipped b1) (expf_ L (base (flipped b1) SET_RADIUS_LOGARITHMIC)) fl)) as Xx by exact (eq_sym (f_equal (fun q => fst (fst q)) Ep)).
    assert (y = (st b1 STATE_ACTUAL_Y : R) + snd (directional_offsets L (flipped b1) (expf_ L (base (flipped b1) SET_RADIUS_LOGARITHMIC)) fl)) as Yy by exact (eq_sym (f_equal (fun q => snd (fst q)) Ep)).
    clear - Ix Iy Bx By O1 O2 Xx Yy. unfold around. lra.
  Qed.

  (** Theorem: with the offsets by speed and by random off and no tracking noise, all
      dabs of all events in a box lie within 3240.5 pixels of the box, whatever the
      other settings and their dynamics. *)
  Theorem C37_near_partial : forall n (es : list (event mixR)) (b b' : brush) w w', shape b -> tame b -> inside b -> Forall (event_in_box xlo xhi ylo yhi) es ->
    fixed b SET_OFFSET_BY_SPEED nothing -> fixed b SET_OFFSET_BY_RANDOM nothing -> at_most 1 b SET_SNAP_TO_PIXEL ->
    ofold (fun a e => match a with Some (b, w) => let* r := stroke_to L n b w e in Ok (option_map (fun x => let '(_, b, w) := x in (b, w)) r) | None => Ok None end) es (Some (b, w)) = Ok (Some (b', w')) ->
    exists ds, drew (w_surf w) ds (w_surf w') /\ Forall (around (3240 + 1 / 2)) ds.
  Proof.
    intros n es. induction es as [|e es IH]; intros b b' w w' Sh Ht Hi Fe HV HR HS H; cbn [ofold] in H; [apply Ok_inj in H; injection H as _ <-; exists []; split; [apply drew_none|constructor]|].
    inversion Fe as [|? ? He Fe']; subst. apply obind_ok in H. destruct H as (r & Er & H). destruct r as [[b1 w1]|]; [|exfalso; clear - H; induction es; cbn in H; [discriminate H|auto]].
    apply obind_ok in Er. destruct Er as (r & Er & E1). apply Ok_inj in E1. destruct r as [((a, b2), w2)|]; [|discriminate E1]. cbn [option_map] in E1. injection E1 as -> ->.
    assert (RD : forall (c c' : brush) v v' t (q : event mixR) z, shape c -> tame c -> 0 <= (ev_dtime q : R) -> inside c -> in_box (ev_x q) (ev_y q) -> b_settings c = b_settings b ->
      stroke_rest L n c v t q = Ok (Some (z, c', v')) ->
      shape c' /\ tame c' /\ inside c' /\ b_settings c' = b_settings b /\ exists ds, drew (w_surf v) ds (w_surf v') /\ Forall (around (3240 + 1 / 2)) ds).
    { intros c c' v v' t q z Shc Tc Dq Ic Bq Sc R. split; [eapply stroke_rest_shape; eauto|]. destruct (rest_inside L RL xlo xhi ylo yhi _ _ _ _ _ _ _ _ Tc Dq Ic Bq R) as (Ic' & Tc').
      split; [exact Tc'|]. split; [exact Ic'|]. split; [rewrite <- Sc; eapply rest_drew; eauto|].
      destruct (rest_dabs _ _ _ _ _ _ _ _ Shc Tc Dq Ic Bq R) as (ds & D & M). exists ds. split; [exact D|]. rewrite Sc in M.
      eapply Forall_impl; [|exact M]. intros d (c1 & I1 & S1 & M1). eapply made_around; eauto. }
    assert (shape b1 /\ tame b1 /\ inside b1 /\ b_settings b1 = b_settings b /\ exists ds, drew (w_surf w) ds (w_surf w1) /\ Forall (around (3240 + 1 / 2)) ds) as (Sh1 & Ht1 & Hi1 & Es1 & ds1 & D1 & A1).
    { unfold stroke_to in Er. apply obind_ok in Er. destruct Er as ((t, e1) & Es & Er). destruct (sane_event L RL _ _ _ _ _ _ _ He Es) as [He1 Hd1]. match type of Er with (if ?c then _ else _) = _ => destruct c end.
      - apply obind_ok in Er. destruct Er as ((t2, e2) & Es2 & Er). apply obind_ok in Er. destruct Er as (r2 & Er2 & Er). destruct r2 as [((a3, b3), w3)|]; [|discriminate Er].
        assert (event_in_box xlo xhi ylo yhi e2 /\ 0 < (ev_dtime e2 : R)) as [He2 Hd2] by (apply (sane_event L RL xlo xhi ylo yhi (silent_event e1) t2); [exact He1|exact Es2]).
        destruct (RD _ _ _ _ _ _ _ Sh Ht (Rlt_le _ _ Hd2) Hi (proj1 He2) eq_refl Er2) as (Sh3 & Ht3 & Hi3 & Es3 & ds3 & D3 & A3).
        refine ((fun X => _) (RD _ _ _ _ _ _ _ Sh3 Ht3 _ Hi3 _ Es3 Er)); [|cbn; lra|exact (proj1 He1)]. destruct X as (Sh4 & Ht4 & Hi4 & Es4 & ds4 & D4 & A4).
        split; [exact Sh4|]. split; [exact Ht4|]. split; [exact Hi4|]. split; [exact Es4|]. exists (ds3 ++ ds4). split; [eapply drew_app; eauto|]. apply Forall_app. auto.
      - exact (RD _ _ _ _ _ _ _ Sh Ht (Rlt_le _ _ Hd1) Hi (proj1 He1) eq_refl Er). }
    destruct (IH b1 b' w1 w' Sh1 Ht1 Hi1 Fe') as (ds2 & D2 & A2); [| | |exact H|].
    - unfold fixed. destruct (base_same b b1 SET_OFFSET_BY_SPEED Es1) as (-> & ->). exact HV.
    - unfold fixed. destruct (base_same b b1 SET_OFFSET_BY_RANDOM Es1) as (-> & ->). exact HR.
    - unfold at_most. rewrite Es1. exact HS.
    - exists (ds1 ++ ds2). split; [eapply drew_app; eauto|]. apply Forall_app. auto.
  Qed.
End Exact.

(** A case: the brush of [C34_case] and the event (3, 4). *)
Lemma roundR : forall x : R, (Rabs ((roundf_ mathR x : R) - x) <= 1 / 2)%R.
Proof. intros x. change (roundf_ mathR x : R) with (IZR (ZnearestA x)). rewrite Rabs_minus_sym. pose proof (Znearest_half (Z.leb 0) x). lra. Qed.
Example C37_exact_case : exists a b' w', shape case_brush /\ tame case_brush /\ inside 0 3 0 4 case_brush /\ event_in_box 0 3 0 4 case_event /\ fixed case_brush SET_OFFSET_BY_SPEED nothing /\ fixed case_brush SET_OFFSET_BY_RANDOM nothing /\ at_most 1 case_brush SET_ANTI_ALIASING /\ at_most 1 case_brush SET_SNAP_TO_PIXEL /\ stroke_to mathR 200 case_brush worldR case_event = Ok (Some (a, b', w')).
Proof.
  destruct C45_case as (a & b' & w' & R & _). exists a, b', w'.
  assert (forall i, (i < SETTINGS_COUNT)%nat -> two_per_radius i = 0%R -> at_most 1 case_brush i) as AM.
  { intros i Hi H0 data vs Ev. assert (nth i vs (nofZ 0) = base case_brush i) as X by (eapply fixed_value; [apply flat_constant|exact Ev]). change (nth i vs (0%R : sng mixR)) with (nth i vs (@nofZ (sng mixR) 0)). rewrite X. unfold case_brush. rewrite flat_base by exact Hi. rewrite H0. lra. }
  assert (forall i, (i < SETTINGS_COUNT)%nat -> two_per_radius i = 0%R -> fixed case_brush i nothing) as FX.
  { intros i Hi H0. split; [apply flat_constant|]. unfold nothing, case_brush. rewrite flat_base by exact Hi. exact H0. }
  split; [apply (proj1 case_plain)|]. split; [exact case_tame|]. split; [exact case_inside|]. split; [exact case_event_in|].
  split; [apply FX; [vm_compute; lia|reflexivity]|]. split; [apply FX; [vm_compute; lia|reflexivity]|].
  split; [apply AM; [vm_compute; lia|reflexivity]|]. split; [apply AM; [vm_compute; lia|reflexivity]|]. exact R.
Qed.

Print Assumptions C37_exact_partial.
Print Assumptions C37_near_partial.
