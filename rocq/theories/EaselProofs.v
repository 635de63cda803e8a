(** The brush engine on a surface that draws every dab with sensible numbers: the
    engine asks for no other dab, and gets through every event. *)
From Verif Require Import Base F32 F32Proofs Arith Color Mapping P_Mapping Settings Spectral Brush BrushProofs ReturnProofs StepFacts BrushInst P_Abort P_Limits EaselNum EaselDab ColorFloat EaselStep.
From Coq Require Import Reals Lra.
From Flocq Require Import Core.Core IEEE754.BinarySingleNaN.
Local Open Scope Z_scope.

(** *** The class of brushes *)
(** [yields m P]: whatever the inputs are - the pressure input between 0 and 117,
    the random input between 0 and 1, the others arbitrary (also not a number) -
    the setting evaluates to a number with [P]. *)
Definition yields (m : mapping (sng mix64)) (P : f32 -> Prop) : Prop :=
  forall data : list f32, length data = INPUTS_COUNT -> zf 0 (nth 0 data (f_of_Z 0)) 117 -> zf 0 (nth 1 data (f_of_Z 0)) 1 ->
  exists v : f32, mapping_calculate m data = Ok v /\ P v.

Definition in_range (lo hi : Z) (v : f32) : Prop := zf lo v hi.
Definition any_number (v : f32) : Prop := fin v.
Definition hardness_range (v : f32) : Prop := fin v /\ (b2r v <= 0 \/ / 1000 <= b2r v)%R.
Definition softness_range (v : f32) : Prop := fin v /\ (b2r v <= 9 / 10)%R.

(** what is required of the values of the settings *)
Definition ranges : list (nat * (f32 -> Prop)) :=
  [ (SET_OPAQUE, in_range (-1000) 1000); (SET_OPAQUE_MULTIPLY, in_range (-1000) 1000); (SET_RADIUS_LOGARITHMIC, in_range (-1000) 1000);
    (SET_HARDNESS, hardness_range); (SET_SOFTNESS, softness_range); (SET_ANTI_ALIASING, aa_ok);
    (SET_DABS_PER_BASIC_RADIUS, in_range (-1000) 1000); (SET_DABS_PER_ACTUAL_RADIUS, in_range (-1000) 1000);
    (SET_RADIUS_BY_RANDOM, in_range (-100) 100); (SET_OFFSET_BY_RANDOM, in_range (-1000) 25); (SET_OFFSET_X, in_range (-1000) 1000);
    (SET_OFFSET_Y, in_range (-1000) 1000); (SET_OFFSET_MULTIPLIER, in_range (-1000) 3); (SET_OFFSET_ANGLE, zero); (SET_OFFSET_ANGLE_ASC, zero);
    (SET_OFFSET_ANGLE_VIEW, zero); (SET_OFFSET_ANGLE_2, nonposf); (SET_OFFSET_ANGLE_2_ASC, nonposf); (SET_OFFSET_ANGLE_2_VIEW, nonposf);
    (SET_OFFSET_BY_SPEED, zero); (SET_SLOW_TRACKING_PER_DAB, any_number); (SET_CHANGE_COLOR_H, in_range (-1000) 1000); (SET_CHANGE_COLOR_L, in_range (-1000) 1000);
    (SET_CHANGE_COLOR_HSL_S, in_range (-1000) 1000); (SET_CHANGE_COLOR_V, in_range (-1000) 1000); (SET_CHANGE_COLOR_HSV_S, in_range (-1000) 1000); (SET_SMUDGE, zero); (SET_PAINT_MODE, any_number);
    (SET_ERASER, in_range (-1000) 1000); (SET_ELLIPTICAL_DAB_RATIO, in_range (-1000) 1000); (SET_ELLIPTICAL_DAB_ANGLE, in_range (-10000) 10000);
    (SET_LOCK_ALPHA, any_number); (SET_COLORIZE, nonposf); (SET_POSTERIZE, nonposf); (SET_POSTERIZE_NUM, in_range (-1000) 1000);
    (SET_SNAP_TO_PIXEL, in_range 0 1) ].
(** and of the base values of the settings the engine reads directly *)
Definition base_ranges : list (nat * (f32 -> Prop)) :=
  [ (SET_RADIUS_LOGARITHMIC, in_range (-6) 6); (SET_TRACKING_NOISE, in_range (-1000) 12); (SET_SLOW_TRACKING, nonposf);
    (SET_PRESSURE_GAIN_LOG, in_range (-100) 2); (SET_COLOR_H, in_range (-1000000) 1000000); (SET_COLOR_S, any_number); (SET_COLOR_V, any_number);
    (SET_OPAQUE_LINEARIZE, in_range 0 2) ].

Record tuned (ms : list (mapping (sng mix64))) : Prop := {
  tn_all : forall i m, nth_error ms i = Some m -> yields m (fun _ => True);
  tn_range : forall i P m, In (i, P) ranges -> nth_error ms i = Some m -> yields m P;
  tn_base : forall i P m, In (i, P) base_ranges -> nth_error ms i = Some m -> P (mp_base m);
  tn_smudge : forall m, nth_error ms SET_SMUDGE = Some m -> mp_used m = 0;
  tn_lock : (forall m, nth_error ms SET_LOCK_ALPHA = Some m -> yields m nonposf) \/ (forall m, nth_error ms SET_PAINT_MODE = Some m -> yields m nonposf) }.

(** *** The dabs it draws *)
Record drawable (d : dab mix64) : Prop := {
  dr_x : zf (-440001) (dab_x d) 440001; dr_y : zf (-440001) (dab_y d) 440001; dr_radius : zf (-1) (dab_radius d) 1010;
  dr_r : zf 0 (dab_r d) 1; dr_g : zf 0 (dab_g d) 1; dr_b : zf 0 (dab_b d) 1; dr_opaque : zf 0 (dab_opaque d) 1;
  dr_hard : zf (-1) (dab_hardness d) 1 /\ ((b2r (dab_hardness d : f32) <= 0)%R \/ (bpow radix2 (-126) <= b2r (dab_hardness d : f32))%R);
  dr_soft : fin (dab_softness d : f32) /\ (0 <= b2r (dab_softness d : f32) <= 9 / 10)%R;
  dr_gap : (b2r (dab_hardness d : f32) <= 0)%R \/ (/ 1000 <= b2r (dab_hardness d : f32))%R \/ (b2r (dab_radius d : f32) <= 22)%R;
  dr_alpha : fin (dab_alpha_eraser d : f32); dr_aspect : zf (-1000) (dab_aspect d) 1000; dr_angle : zf (-181) (dab_angle d : f32) 1;
  dr_lock : fin (dab_lock_alpha d : f32); dr_colorize : nonposf (dab_colorize d); dr_posterize : nonposf (dab_posterize d);
  dr_pnum : zf (-1000) (dab_posterize_num d) 1000; dr_paint : fin (dab_paint d : f32);
  dr_either : (b2r (dab_lock_alpha d : f32) <= 0 \/ b2r (dab_paint d : f32) <= 0)%R }.

Lemma zero_not_above : forall v : f32, zero v -> dlt (d_of_Z 0) (d_of_f v) = false.
Proof.
  intros v H. unfold zero in H. destruct (is_finite v) eqn:F.
  - destruct f0_val as (V0 & F0). rewrite feq_spec, V0 in H by auto. destruct (d_of_f_exact v F) as (V & G). destruct (zd_Z 0) as ((G0 & _) & W0); [lia|]. rewrite dlt_spec, V, W0 by auto.
    destruct (Req_bool_spec (b2r v) 0) as [->|]; [|discriminate H]. apply Rlt_bool_false. simpl. lra.
  - destruct v as [q| [|] | |q m e pf]; try discriminate F; discriminate H.
Qed.

Section Easel.
  Context (L : mathlib mix64) {E : env mix64} (EM : easel_maths L) (FR : fair E) (Inv : e_surf E -> Prop).
  Context (HD : forall sf d, Inv sf -> drawable d -> exists p sf', e_draw E sf d = Ok (p, sf') /\ Inv sf').

  Definition vals (b : brush E) : Prop :=
    (forall i P, In (i, P) ranges -> P (val b i)) /\ (b2r (val b SET_LOCK_ALPHA : f32) <= 0 \/ b2r (val b SET_PAINT_MODE : f32) <= 0)%R.
  Lemma vals_same : forall b b' : brush E, b_values b' = b_values b -> vals b -> vals b'.
  Proof. intros b b' Ev (A & B). unfold vals, val. rewrite Ev. split; assumption. Qed.

  Lemma tuned_base : forall (b : brush E) i P, shape b -> tuned (b_settings b) -> In (i, P) base_ranges -> P (base b i).
  Proof.
    intros b i P (_ & (Ln & _) & _) T I. unfold base. destruct (nth_error (b_settings b) i) as [m|] eqn:N; [eapply tn_base; eauto|exfalso].
    apply nth_error_None in N. rewrite Ln in N.
    assert (forall l, (forall q : nat * (f32 -> Prop), In q l -> (fst q < SETTINGS_COUNT)%nat) -> In (i, P) l -> (i < SETTINGS_COUNT)%nat) as A by (intros l H1 H2; exact (H1 _ H2)).
    assert (i < SETTINGS_COUNT)%nat; [|lia]. refine (A base_ranges _ I). intros q Hq. cbn in Hq. repeat destruct Hq as [<-|Hq]; vm_compute; lia.
  Qed.
  Lemma ranges_index : forall i P, In (i, P) ranges -> (i < SETTINGS_COUNT)%nat.
  Proof.
    intros i P I. assert (forall q, In q ranges -> (fst q < SETTINGS_COUNT)%nat) as A; [|exact (A _ I)].
    intros q Hq. cbn in Hq. repeat destruct Hq as [<-|Hq]; vm_compute; lia.
  Qed.

  (** *** One step *)
  Lemma clamp_pressure : forall (k : Z) (x : f32), 0 <= k -> zf (- k) x k -> zf 0 (if dle (d_of_f x) (d_of_Z 0) then f_of_Z 0 else x) k.
  Proof.
    intros k x Hk (F & H). destruct (d_of_f_exact x F) as (V & G). destruct (zd_Z 0) as ((G0 & _) & W0); [lia|]. rewrite dle_spec, V, W0 by auto.
    destruct (Rle_bool_spec (b2r x) 0); [eapply zf_weak; [apply zf_Z|lia|]; lia|split; [exact F|simpl; lra]].
  Qed.
  Lemma angle_ok : forall a v : f32, zf (-10000) a 10000 -> zf (-100) v 100 -> zf (-181) (tilted (M := mix64) a (rotation (M := mix64) L v) : f32) 1.
  Proof.
    intros a v (Fa & Ha) Hv. simpl in Ha. unfold tilted, rotation.
    change (@nar mix64) with f_of_d. change (@wid mix64) with d_of_f. change (@nsub (dbl mix64)) with dsub. change (@nadd (dbl mix64)) with dadd. change (@nsub (sng mix64)) with fsub. change (@nofZ (sng mix64)) with f_of_Z. change (@nofZ (dbl mix64)) with d_of_Z.
    destruct (zd_Z 180) as ((G1 & _) & W1); [lia|].
    assert (forall (n : Z) (x : f64), 180 <= n <= 360 -> zd (-17000) x 17000 -> zf (-181) (f_of_d (dsub (d_of_f (mod_arith mix64 (f_of_d (dadd x (d_of_Z 180))) (f_of_Z n))) (d_of_Z 180))) (n - 179)) as K.
    { intros n x Hn (Fx & Hx). simpl in Hx. destruct (zd_add (-18000) 18000 x (d_of_Z 180) Fx G1) as (Z1 & _); [split; lia|rewrite W1; simpl; lra|].
      destruct (zf_nar _ _ _ Z1) as (Z2 & _); [split; lia|]. pose proof (mod_arith_ok n _ Hn Z2) as Z3. destruct (zd_wid _ _ _ Z3) as ((F4 & H4) & _). rewrite plus_IZR in H4. simpl in H4.
      destruct (zd_sub (-181) (n - 179) _ (d_of_Z 180) F4 G1) as (Z5 & _); [split; lia|rewrite W1, minus_IZR; simpl; lra|]. apply zf_nar; [exact Z5|split; lia]. }
    assert (zf (-181) (f_of_d (dsub (d_of_f (mod_arith mix64 (f_of_d (dadd (degrees (M := mix64) L (d_of_f v)) (d_of_Z 180))) (f_of_Z 360))) (d_of_Z 180))) 181) as (Fr & Hr).
    { apply (K 360); [lia|]. eapply zd_weak; [apply (degrees_ok L EM); exact Hv|lia|lia]. }
    set (r := f_of_d (dsub (d_of_f (mod_arith mix64 (f_of_d (dadd (degrees (M := mix64) L _) _)) _)) _)) in *. clearbody r. change (car (sng mix64)) with f32 in r. simpl in Hr.
    destruct (zf_sub (-10181) 10181 a r Fa Fr) as (Zs & _); [split; lia|simpl; lra|]. destruct (zd_wid _ _ _ Zs) as (Zw & _).
    apply (K 180); [lia|]. eapply zd_weak; [exact Zw|lia|lia].
  Qed.

  Definition ready (b : brush E) : Prop := shape b /\ tuned (b_settings b) /\ zd 0 (b_random b) 1 /\ flip_ok b.

  (** the state after a step is fit for a dab *)
  Record fit (b : brush E) : Prop := {
    ft_ready : ready b; ft_vals : vals b; ft_angle : zf (-181) (st b STATE_ACTUAL_ELLIPTICAL_DAB_ANGLE : f32) 1;
    ft_radius : fin (st b STATE_ACTUAL_RADIUS : f32) /\ (2 / 10 <= b2r (st b STATE_ACTUAL_RADIUS : f32) <= 1000)%R;
    ft_dabs1 : zf (-1000) (st b STATE_DABS_PER_ACTUAL_RADIUS) 1000; ft_dabs2 : zf (-1000) (st b STATE_DABS_PER_BASIC_RADIUS) 1000;
    ft_ratio : zf (-1000) (st b STATE_ACTUAL_ELLIPTICAL_DAB_RATIO) 1000 }.

  Lemma update_ok : forall (b : brush E) (p : step mix64), ready b -> zf (-13) (fadd (st b STATE_PRESSURE) (sp_dpressure p)) 13 -> zf (-100) (sp_viewrotation p) 100 ->
    exists b', update_states L b p = Ok b' /\ fit b' /\ b_settings b' = b_settings b /\ b_random b' = b_random b /\
      st b' STATE_X = fadd (st b STATE_X) (sp_dx p) /\ st b' STATE_Y = fadd (st b STATE_Y) (sp_dy p) /\
      st b' STATE_PRESSURE = (if dle (d_of_f (fadd (st b STATE_PRESSURE) (sp_dpressure p))) (d_of_Z 0) then f_of_Z 0 else fadd (st b STATE_PRESSURE) (sp_dpressure p)) /\
      st b' STATE_PARTIAL_DABS = st b STATE_PARTIAL_DABS /\
      (exists T : f32, fin T /\
        st b' STATE_ACTUAL_X = fadd (st b STATE_ACTUAL_X) (fmul (fsub (st b' STATE_X) (st b STATE_ACTUAL_X)) (filter_fac (M := mix64) L T (sp_ddab p))) /\
        st b' STATE_ACTUAL_Y = fadd (st b STATE_ACTUAL_Y) (fmul (fsub (st b' STATE_Y) (st b STATE_ACTUAL_Y)) (filter_fac (M := mix64) L T (sp_ddab p)))).
  Proof.
    intros b p (Sh & Tn & Rn & Fl) Hp Hv. pose proof (proj1 Sh) as Hs.
    destruct (step_pen_facts L b p Hs) as (_ & _ & _ & _ & _ & Pp). cbv zeta in Pp.
    assert (forall i m P, nth_error (b_settings b) i = Some m -> yields m P -> exists v : f32, mapping_calculate m (step_inputs L (step_pen L b p)) = Ok v /\ P v) as Calc.
    { intros i m P N Y. apply Y; [reflexivity| |].
      - refine (eq_ind_r (fun v : f32 => zf 0 v 117) _ (inputs_first L (step_pen L b p))). rewrite Pp.
        pose proof (clamp_pressure 13 _ ltac:(lia) Hp) as (Fa & Ha). change (@nadd (sng mix64)) with fadd. change (@nle (dbl mix64)) with dle. change (@wid mix64) with d_of_f. change (@nofZ (dbl mix64) 0) with (d_of_Z 0). change (@nofZ (sng mix64) 0) with (f_of_Z 0).
        set (pr := if dle _ _ then _ else _) in *. clearbody pr.
        assert (base (step_pen L b p) SET_PRESSURE_GAIN_LOG = base b SET_PRESSURE_GAIN_LOG) as -> by (unfold base; rewrite (os_settings b) by apply step_pen_os; reflexivity).
        destruct (tuned_base b SET_PRESSURE_GAIN_LOG (in_range (-100) 2) Sh Tn ltac:(cbn; auto 9)) as (Fg & Hg). simpl in Hg, Ha.
        destruct (em_exp L EM _ 2 Fg) as (Fe & He); [simpl; lra|lia|]. simpl in He. set (e := expf_ L _) in *. clearbody e. change (car (sng mix64)) with f32 in *. change (@nmul (sng mix64)) with fmul.
        apply zf_mul; auto; [split; lia|simpl; nra].
      - refine (eq_ind_r (fun v : f32 => zf 0 v 1) _ (inputs_second L (step_pen L b p))).
        assert (b_random (step_pen L b p) = b_random b) as -> by (destruct (step_pen_os L b p) as (-> & _); reflexivity).
        change (@nar mix64) with f_of_d. apply zf_nar; [exact Rn|split; lia]. }
    destruct (calc_ok (M := mix64) (b_settings b) (step_inputs L (step_pen L b p))) as (vs & Evs).
    { intros i m N. destruct (Calc i m _ N (tn_all _ Tn i m N)) as (v & Ev & _). eauto. }
    assert (exists b', update_states L b p = Ok b') as (b' & U).
    { unfold update_states. cbv zeta. rewrite (os_settings b) by apply step_pen_os. rewrite Evs. cbn [obind]. eauto. }
    exists b'. split; [exact U|]. pose proof (shape_update L b p b' Sh U) as Sh'.
    destruct (update_facts L b p b' Hs U) as (b1 & (_ & Ex & Ey & _ & Keep & Epr) & Fi & _ & Ecalc & _ & Evals).
    destruct (update_more L b p b' Hs U) as (Ang & Rad & Es & Er & _).
    rewrite Evs in Ecalc. apply Ok_inj in Ecalc. rewrite <- Ecalc in Evals.
    assert (forall i, val b1 i = val b' i) as Vv by (intros i; unfold val; rewrite Evals, <- Ecalc; reflexivity).
    assert (forall i m P, nth_error (b_settings b) i = Some m -> yields m P -> P (val b' i)) as Value.
    { intros i m P N Y. destruct (Calc i m P N Y) as (v & Ev & Pv). pose proof (calc_nth (M := mix64) _ _ _ _ _ Evs N) as C. rewrite Ev in C. apply Ok_inj in C. unfold val. rewrite Evals. rewrite <- C. exact Pv. }
    assert (vals b') as Va.
    { split.
      - intros i P I. destruct (nth_error (b_settings b) i) as [m|] eqn:N; [eapply Value; eauto; eapply tn_range; eauto|exfalso].
        apply nth_error_None in N. apply ranges_index in I. destruct Sh as (_ & (Ln & _) & _). lia.
      - destruct Sh as (_ & (Ln & _) & _). destruct (tn_lock _ Tn) as [Y|Y]; [left|right].
        + destruct (nth_error (b_settings b) SET_LOCK_ALPHA) as [m|] eqn:N; [apply (Value _ m nonposf N (Y m eq_refl))|exfalso; apply nth_error_None in N; rewrite Ln in N; vm_compute in N; lia].
        + destruct (nth_error (b_settings b) SET_PAINT_MODE) as [m|] eqn:N; [apply (Value _ m nonposf N (Y m eq_refl))|exfalso; apply nth_error_None in N; rewrite Ln in N; vm_compute in N; lia]. }
    destruct Fi as (_ & Keep2 & (D1 & D2 & _ & D4) & (A1 & A2) & _).
    assert (forall i, In i [STATE_X; STATE_Y; STATE_PARTIAL_DABS; STATE_PRESSURE; STATE_VIEWZOOM; STATE_FLIP; STATE_VIEWROTATION] -> st b' i = st b1 i) as K2 by (apply Forall_forall; exact Keep2).
    rewrite Forall_forall in Keep.
    split. { split.
      - split; [exact Sh'|]. split; [rewrite Es; exact Tn|]. split; [rewrite Er; exact Rn|]. unfold flip_ok. rewrite K2 by (cbn; auto 9). rewrite Keep by (cbn; auto 9). exact Fl.
      - exact Va.
      - rewrite Ang. apply angle_ok; [|exact Hv]. apply (proj1 Va SET_ELLIPTICAL_DAB_ANGLE (in_range (-10000) 10000)). cbn; auto 50.
      - rewrite Rad. apply clamped_num. apply (em_exp_num L EM). apply (proj1 Va SET_RADIUS_LOGARITHMIC (in_range (-1000) 1000)). cbn; auto 50.
      - rewrite D2, Vv. apply (proj1 Va SET_DABS_PER_ACTUAL_RADIUS (in_range (-1000) 1000)). cbn; auto 50.
      - rewrite D1, Vv. apply (proj1 Va SET_DABS_PER_BASIC_RADIUS (in_range (-1000) 1000)). cbn; auto 50.
      - rewrite D4, Vv. apply (proj1 Va SET_ELLIPTICAL_DAB_RATIO (in_range (-1000) 1000)). cbn; auto 50. }
    split; [exact Es|]. split; [exact Er|]. rewrite !K2 by (cbn; auto 9). split; [exact Ex|]. split; [exact Ey|]. split; [exact Epr|]. split; [apply Keep; cbn; auto 9|].
    exists (val b' SET_SLOW_TRACKING_PER_DAB). split; [apply (proj1 Va SET_SLOW_TRACKING_PER_DAB any_number); cbn; auto 50|].
    rewrite A1, A2, Vv. rewrite (Keep STATE_ACTUAL_X), (Keep STATE_ACTUAL_Y) by (cbn; auto 9). split; reflexivity.
  Qed.

  (** *** One dab *)
  Lemma hardness_fit : forall v : f32, hardness_range v -> hardness_ok (clamp01 mix64 v).
  Proof.
    intros v (F & H). destruct (clamp01_fin v F) as (G & B). split; [split; [exact G|simpl; lra]|]. unfold clamp01 in *. change (@nlt (sng mix64)) with flt in *. change (@nofZ (sng mix64)) with f_of_Z in *.
    destruct (zf_Z 0) as ((F0 & _) & V0); [lia|]. destruct (zf_Z 1) as ((F1 & _) & V1); [lia|]. rewrite !flt_spec, V0, V1 in * by auto.
    destruct (Rlt_bool_spec 1 (b2r v)); [right; rewrite V1; simpl; lra|]. destruct (Rlt_bool_spec (b2r v) 0); [left; exact V0|]. destruct H; [left|right]; lra.
  Qed.
  Lemma softness_fit : forall v : f32, softness_range v -> fin (clamp01 mix64 v : f32) /\ (0 <= b2r (clamp01 mix64 v : f32) <= 9 / 10)%R.
  Proof.
    intros v (F & H). destruct (clamp01_fin v F) as (G & B). split; [exact G|]. unfold clamp01 in *. change (@nlt (sng mix64)) with flt in *. change (@nofZ (sng mix64)) with f_of_Z in *.
    destruct (zf_Z 0) as ((F0 & _) & V0); [lia|]. destruct (zf_Z 1) as ((F1 & _) & V1); [lia|]. rewrite !flt_spec, V0, V1 in * by auto.
    destruct (Rlt_bool_spec 1 (b2r v)); [exfalso; lra|]. destruct (Rlt_bool_spec (b2r v) 0); [rewrite V0; simpl; lra|lra].
  Qed.

  Lemma prepare_ok : forall (b : brush E) w lin, fit b -> zf (- K3) (st b STATE_ACTUAL_X) K3 -> zf (- K3) (st b STATE_ACTUAL_Y) K3 -> Inv (w_surf w) ->
    exists r b' w', prepare_and_draw_dab L b w lin = Ok (r, b', w') /\ Inv (w_surf w').
  Proof.
    intros b w lin [(Sh & Tn & Rn & Fl) (V & Vlp) An (Fr & Hr) D1 D2 Ra] Hx Hy HI.
    assert (forall i P, In (i, P) base_ranges -> P (base b i)) as B by (intros; eapply tuned_base; eauto).
    assert (offs_ok b) as Off.
    { constructor; [apply (V _ (in_range (-1000) 3))|apply (V _ (in_range (-1000) 1000))|apply (V _ (in_range (-1000) 1000))|apply (V _ zero)|apply (V _ zero)|apply (V _ zero)|apply (V _ nonposf)|apply (V _ nonposf)|apply (V _ nonposf)|apply (V _ zero)|apply (V _ (in_range (-1000) 25))|apply (B _ (in_range (-6) 6))]; cbn; auto 50. }
    assert (exists z, to_i (wid (st b STATE_FLIP)) = Ok z) as Hf.
    { destruct Fl as [-> | ->]; [exists 1|exists (-1)]; vm_compute; reflexivity. }
    pose proof (opacity_ok L EM b (V SET_OPAQUE (in_range (-1000) 1000) ltac:(cbn; auto 50)) (V SET_OPAQUE_MULTIPLY (in_range (-1000) 1000) ltac:(cbn; auto 50)) (B SET_OPAQUE_LINEARIZE (in_range 0 2) ltac:(cbn; auto 50)) D1 D2) as Hop.
    unfold prepare_and_draw_dab. cbv zeta. destruct (position_ok L EM b FR Hf Off Hx Hy) as (x & y & g1 & -> & Zx & Zy). cbn [obind].
    destruct (size_ok L EM (with_rng b g1) (dab_opacity L b) FR Hop Fr Hr (V SET_RADIUS_LOGARITHMIC (in_range (-1000) 1000) ltac:(cbn; auto 50)) (V SET_RADIUS_BY_RANDOM (in_range (-100) 100) ltac:(cbn; auto 50))) as (rd & op & g2 & -> & Frd & Hrd & Zop). cbn [obind].
    set (b2 := with_rng (with_rng b g1) g2). change (val b2) with (val b). change (base b2) with (base b). change (Brush.constant b2) with (Brush.constant b). change (st b2) with (st b).
    destruct (B SET_COLOR_H (in_range (-1000000) 1000000) ltac:(cbn; auto 50)) as (Fh & Hh). simpl in Hh.
    destruct (hsv_unit _ _ _ Fh ltac:(apply Rabs_le; lra) (B SET_COLOR_S any_number ltac:(cbn; auto 50)) (B SET_COLOR_V any_number ltac:(cbn; auto 50))) as (cr & cg & cb & Eh & Zr & Zg & Zb). match goal with |- context [hsv_to_rgb mix64 ?t] => replace (hsv_to_rgb mix64 t) with (Ok ((cr, cg, cb) : color mix64)) by (symmetry; exact Eh) end. clear Eh. cbn [obind].
    pose proof (V SET_SMUDGE zero ltac:(cbn; auto 50)) as Sm. rewrite (zero_off _ Sm).
    assert (Brush.constant b SET_SMUDGE = true) as ->.
    { unfold Brush.constant. destruct (nth_error (b_settings b) SET_SMUDGE) as [m|] eqn:N; [|reflexivity]. unfold mapping_is_constant. rewrite (tn_smudge _ Tn m N). reflexivity. }
    cbn [negb orb]. rewrite andb_false_r. cbn [obind].
    assert (@nlt (dbl mix64) (nofZ 0) (wid (val b SET_SMUDGE)) = false) as -> by (apply zero_not_above; exact Sm). cbn [obind].
    destruct (dab_color_ok L EM b2 cr cg cb lin Zr Zg Zb) as (dr & dg & db & Ec & Zdr & Zdg & Zdb).
    { intros i I. change (val b2 i) with (val b i). cbn [In] in I. repeat (destruct I as [<-|I]; [apply (V _ (in_range (-1000) 1000)); cbn; auto 50|]). destruct I. }
    match goal with |- context [dab_color L b2 ?c lin] => replace (dab_color L b2 c lin) with (Ok ((dr, dg, db) : color mix64)) by (symmetry; exact Ec) end. clear Ec. cbn [obind]. change (val b2) with (val b). change (st b2) with (st b).
    pose proof (hardness_fit _ (V SET_HARDNESS hardness_range ltac:(cbn; auto 50))) as Hh'. pose proof (softness_fit _ (V SET_SOFTNESS softness_range ltac:(cbn; auto 50))) as Hs'.
    destruct (anti_alias_ok rd _ _ Frd Hrd Hh' (V SET_ANTI_ALIASING aa_ok ltac:(cbn; auto 50))) as (rd' & hd' & Ea & Zr' & Zh' & Sg & Gap).
    match goal with |- context [anti_alias (M := mix64) ?r ?h ?m] => replace (anti_alias (M := mix64) r h m) with ((rd', hd') : car (sng mix64) * car (sng mix64)) by (symmetry; exact Ea) end. clear Ea. cbv beta iota.
    destruct (snap_ok L EM 440000 x y rd' (val b SET_SNAP_TO_PIXEL) ltac:(lia) Zx Zy Zr' (V SET_SNAP_TO_PIXEL (in_range 0 1) ltac:(cbn; auto 50))) as (x' & y' & rd'' & Es & Zx' & Zy' & Zr'' & Small).
    match goal with |- context [snap_pixel (M := mix64) L ?x ?y ?r ?m] => replace (snap_pixel (M := mix64) L x y r m) with ((x', y', rd'') : car (sng mix64) * car (sng mix64) * car (sng mix64)) by (symmetry; exact Es) end. clear Es. cbv beta iota.
    match goal with |- context [e_draw E (w_surf w) ?d] => destruct (HD (w_surf w) d HI) as (pn & sf & -> & HI') end.
    2:{ cbn [obind]. eexists _, _, _. split; [reflexivity|exact HI']. }
    constructor; cbn [dab_x dab_y dab_radius dab_r dab_g dab_b dab_opaque dab_hardness dab_softness dab_alpha_eraser dab_aspect dab_angle dab_lock_alpha dab_colorize dab_posterize dab_posterize_num dab_paint]; auto.
    - destruct Gap as [G|[G|G]]; auto.
    - destruct (V SET_ERASER (in_range (-1000) 1000) ltac:(cbn; auto 50)) as (Fe & He). simpl in He. destruct (truthy _); [|apply zf_Z; lia].
      change (@nar mix64) with f_of_d. change (@wid mix64) with d_of_f. change (@nsub (dbl mix64)) with dsub. change (@nmul (dbl mix64)) with dmul. change (@nofZ (dbl mix64)) with d_of_Z. change (@nofZ (sng mix64)) with f_of_Z.
      destruct (zf_Z 1) as ((F1 & _) & V1); [lia|]. destruct (d_of_f_exact _ F1) as (W1 & G1). destruct (zd_Z 1) as ((G1' & _) & W1'); [lia|]. destruct (d_of_f_exact _ Fe) as (We & Ge).
      destruct (zd_sub (-1001) 1001 (d_of_Z 1) _ G1' Ge) as ((Fs & Hs) & _); [split; lia|rewrite W1', We; simpl; lra|]. simpl in Hs.
      destruct (zd_mul (-1001) 1001 _ _ G1 Fs) as (Zm & _); [split; lia|rewrite W1, V1; simpl; lra|]. apply (zf_nar _ _ _ Zm). split; lia.
    - apply (V SET_LOCK_ALPHA any_number). cbn; auto 50.
    - apply (V SET_COLORIZE nonposf). cbn; auto 50.
    - apply (V SET_POSTERIZE nonposf). cbn; auto 50.
    - apply (V SET_POSTERIZE_NUM (in_range (-1000) 1000)). cbn; auto 50.
    - apply (V SET_PAINT_MODE any_number). cbn; auto 50.
  Qed.

End Easel.
