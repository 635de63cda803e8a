(** Property C33: which events make mypaint_brush_stroke_to abort. *)
From Verif Require Import Base F32 F32Proofs Arith Color Mapping P_Mapping Settings Spectral Brush BrushProofs BrushInst BrushToy AbortProofs ReturnProofs.
From Coq Require Import Reals Lra.
From Flocq Require Import Core.Core IEEE754.BinarySingleNaN.
Local Open Scope Z_scope.

(** What is needed of the C library: isfinite and unary minus mean what they say,
    M_PI is about pi, and the two functions applied to the tilt are not absurd
    there. *)
Record c_library (L : mathlib mix64) : Prop := {
  cl_finite : forall x : f32, finitef_ L x = is_finite x;
  cl_neg : forall x : f32, negf_ L x = fopp x;
  cl_pi : fin (m_pi L : f64) /\ (3 <= b2r (m_pi L : f64) <= 4)%R;
  cl_atan2 : forall x y : f64, fin x -> fin y -> fin (atan2_ L x y : f64) /\ (Rabs (b2r (atan2_ L x y : f64)) <= 4)%R;
  cl_hypot : forall x y : f64, fin x -> fin y -> (Rabs (b2r x) <= 1)%R -> (Rabs (b2r y) <= 1)%R ->
    fin (hypot_ L x y : f64) /\ (Rabs (b2r (hypot_ L x y : f64)) <= 2)%R }.

(** A position between 10^8 and 10^10: too small to be ignored, too large to be
    accepted. *)
Definition far (x y : f32) : Prop :=
  fin x /\ fin y /\ (Rabs (b2r x) <= 10000000000)%R /\ (Rabs (b2r y) <= 10000000000)%R /\
  ((100000000 <= Rabs (b2r x))%R \/ (100000000 <= Rabs (b2r y))%R).

(** *** arithmetic *)
Lemma small32 : forall x y : R, rep32 y -> (Rabs x <= y)%R -> (Rabs (rnd32 x) <= y)%R.
Proof. intros. apply (rndg_abs_le _ _ prec24); auto. Qed.
Lemma small64 : forall x y : R, rep64 y -> (Rabs x <= y)%R -> (Rabs (rnd64 x) <= y)%R.
Proof. intros. apply (rndg_abs_le _ _ prec53); auto. Qed.
Lemma big127 : (1000000 <= bpow radix2 127)%R.
Proof. rewrite bpow_Z by lia. apply IZR_le. vm_compute. discriminate. Qed.
Lemma big1023 : (1000000 <= bpow radix2 1023)%R.
Proof. apply Rle_trans with (bpow radix2 127); [apply big127|apply bpow_le; lia]. Qed.

Lemma clamp_tilt : forall x : f32, is_nan x = false ->
  fin (clampd (M := mix64) x (nofZ (-1)) (nofZ 1) : f32) /\ (Rabs (b2r (clampd (M := mix64) x (nofZ (-1)) (nofZ 1) : f32)) <= 1)%R.
Proof.
  intros x Hx. unfold clampd. cbn [mix64 wid nar sng dbl num32 num64 nlt nofZ car].
  destruct (d_of_Z_exact 1) as [V1 F1]; [lia|]. destruct (d_of_Z_exact (-1)) as [Vm Fm]; [lia|].
  assert (forall y : f64, fin y -> (Rabs (b2r y) <= 1)%R -> fin (f_of_d y) /\ (Rabs (b2r (f_of_d y)) <= 1)%R) as A.
  { intros y Fy Hy. destruct (f_of_d_spec y Fy) as [V F]; [pose proof big127; lra|]. split; [auto|]. rewrite V. apply small32; [apply (rep32_IZR 1); lia|auto]. }
  destruct (is_finite x) eqn:Fx.
  - destruct (d_of_f_exact x Fx) as [V F]. rewrite !dlt_spec by auto. rewrite V, V1, Vm.
    destruct (Rlt_bool_spec 1 (b2r x)); [apply A; [auto|rewrite V1, Rabs_R1; lra]|].
    destruct (Rlt_bool_spec (b2r x) (-1)); apply A; auto; [rewrite Vm, Rabs_left by lra; lra|]. rewrite V. apply Rabs_le. lra.
  - destruct x as [sx|sx| |]; try discriminate. destruct sx.
    + change (fin (f_of_d (d_of_Z (-1))) /\ (Rabs (b2r (f_of_d (d_of_Z (-1)))) <= 1)%R). apply A; auto. rewrite Vm, Rabs_left by lra . lra.
    + change (fin (f_of_d (d_of_Z 1)) /\ (Rabs (b2r (f_of_d (d_of_Z 1))) <= 1)%R). apply A; auto. rewrite V1, Rabs_R1. lra.
Qed.

Section Abort.
  Context (L : mathlib mix64) (E : env mix64) (CL : c_library L).

  Lemma tilt_ok : forall xt yt : f32, is_nan xt = false -> is_nan yt = false -> exists t, read_tilt (M := mix64) L xt yt = Ok t.
  Proof.
    intros xt yt Hx Hy. unfold read_tilt. destruct (_ || _); [|eauto]. cbv zeta.
    destruct (d_of_Z_exact 2) as [V2 F2]; [lia|]. destruct (d_of_Z_exact 360) as [V360 F360]; [lia|].
    assert (rep64 6 /\ rep64 8 /\ rep64 1 /\ rep64 360) as (R6 & R8 & R1 & R360) by (repeat split; apply rep64_IZR; lia).
    destruct (clamp_tilt xt Hx) as [Fx Ax]. destruct (clamp_tilt yt Hy) as [Fy Ay].
    set (x := clampd (M := mix64) xt _ _) in *. set (y := clampd (M := mix64) yt _ _) in *. clearbody x y. change (car (sng mix64)) with f32 in x, y.
    cbn [mix64 wid nar sng dbl num32 num64 nlt nofZ car nmul nsub]. rewrite !(cl_finite L CL). unfold fin in Fx, Fy. rewrite Fx, Fy. cbn [andb negb].
    destruct (f_of_Z_exact 60) as [V60 F60]; [lia|]. destruct (f_of_Z_exact 90) as [V90 F90]; [lia|].
    pose proof big127 as B127. pose proof big1023 as B1023.
    assert (forall z : f32, is_finite z = true -> (Rabs (b2r z) <= 2)%R -> fin (fmul z (f_of_Z 60)) /\ (Rabs (b2r (fmul z (f_of_Z 60))) <= 120)%R) as A60.
    { intros z Fz Az. destruct (fmul_spec z (f_of_Z 60) Fz F60) as [V F]; [rewrite V60, Rabs_mult, (Rabs_pos_eq 60) by lra; lra|]. split; [auto|].
      rewrite V. apply small32; [apply (rep32_IZR 120); lia|]. rewrite V60, Rabs_mult, (Rabs_pos_eq 60) by lra. lra. }
    destruct (A60 x Fx ltac:(lra)) as [Fdx _]. destruct (A60 y Fy ltac:(lra)) as [Fdy _]. unfold fin in Fdx, Fdy. rewrite Fdx, Fdy, !andb_true_r.
    (* the radius *)
    destruct (d_of_f_exact x Fx) as [Vxd Fxd]. destruct (d_of_f_exact y Fy) as [Vyd Fyd].
    destruct (cl_hypot L CL (d_of_f x) (d_of_f y) Fxd Fyd ltac:(rewrite Vxd; auto) ltac:(rewrite Vyd; auto)) as [Fh Ah]. cbn [mix64 sng dbl num32 num64 car] in *.
    destruct (f_of_d_spec _ Fh ltac:(lra)) as [Vr Fr]. 
    destruct (A60 _ Fr) as [Fr60 Ar60]. { rewrite Vr. apply small32; [apply (rep32_IZR 2); lia|auto]. }
    destruct (fsub_spec (f_of_Z 90) _ F90 Fr60) as [_ Fdecl].
    { rewrite V90. eapply Rle_trans; [apply Rabs_triang|]. rewrite Rabs_Ropp, (Rabs_pos_eq 90) by lra. lra. }
    unfold fin in Fdecl. rewrite Fdecl, andb_true_r.
    (* the ascension *)
    destruct (fopp_spec x) as [Vo Fo]. rewrite (cl_neg L CL). destruct (d_of_f_exact (fopp x) (Fo Fx)) as [_ Fod].
    destruct (cl_atan2 L CL (d_of_f (fopp x)) (d_of_f y) Fod Fyd) as [Fa Aa]. unfold degrees. cbn [mix64 wid nar sng dbl num32 num64 nlt nofZ car nmul nsub ndiv] in *.
    set (a := atan2_ L (d_of_f (fopp x)) (d_of_f y)) in *. clearbody a. destruct (cl_pi L CL) as [Fp Ap]. set (p := m_pi L) in *. clearbody p.
    destruct (dmul_spec (d_of_Z 2) p F2 Fp) as [Vtp Ftp]; [rewrite V2, Rabs_pos_eq; lra|]. rewrite V2 in Vtp.
    assert (6 <= b2r (dmul (d_of_Z 2) p) <= 8)%R as Htp. { rewrite Vtp. split; [apply rnd64_ge_r; [exact R6|lra]|apply rnd64_le_r; [exact R8|lra]]. }
    assert (Rabs (b2r a / b2r (dmul (d_of_Z 2) p)) <= 1)%R as Aq.
    { unfold Rdiv. rewrite Rabs_mult, Rabs_inv, (Rabs_pos_eq (b2r (dmul (d_of_Z 2) p))) by lra.
      apply Rmult_le_reg_r with (b2r (dmul (d_of_Z 2) p)); [lra|]. rewrite Rmult_assoc, Rinv_l by lra. lra. }
    destruct (ddiv_spec a (dmul (d_of_Z 2) p) Fa) as [Vq Fq]; [lra|lra|].
    assert (Rabs (b2r (ddiv a (dmul (d_of_Z 2) p))) <= 1)%R as Bq by (rewrite Vq; apply small64; [exact R1|auto]).
    destruct (dmul_spec _ (d_of_Z 360) Fq F360) as [Vm Fm]; [rewrite V360, Rabs_mult, (Rabs_pos_eq 360) by lra; lra|].
    assert (Rabs (b2r (dmul (ddiv a (dmul (d_of_Z 2) p)) (d_of_Z 360))) <= 360)%R as Bm.
    { rewrite Vm. apply small64; [exact R360|]. rewrite V360, Rabs_mult, (Rabs_pos_eq 360) by lra. lra. }
    destruct (f_of_d_spec _ Fm ltac:(lra)) as [_ Fasc]. unfold fin in Fasc. rewrite Fasc. eauto.
  Qed.
  Lemma tilt_nan : forall xt yt : f32, is_nan xt = true \/ is_nan yt = true -> read_tilt (M := mix64) L xt yt = Abort.
  Proof.
    intros xt yt H. unfold read_tilt. 
    assert (truthy (M := mix64) xt || truthy (M := mix64) yt = true) as ->.
    { apply orb_true_iff. destruct H as [H|H]; [left; destruct xt|right; destruct yt]; try discriminate H; reflexivity. }
    cbv zeta. assert (finitef_ L (clampd (M := mix64) xt (nofZ (-1)) (nofZ 1)) && finitef_ L (clampd (M := mix64) yt (nofZ (-1)) (nofZ 1)) = false) as ->; [|reflexivity].
    rewrite !(cl_finite L CL). apply andb_false_iff. destruct H as [H|H]; [left; destruct xt|right; destruct yt]; try discriminate H; reflexivity.
  Qed.

  (** the sanity check on the position *)
  Definition near (x y : f32) : Prop := fin x /\ fin y /\ (Rabs (b2r x) < 100000000)%R /\ (Rabs (b2r y) < 100000000)%R.
  Lemma sanitise_iff : forall e : event mix64, is_nan (ev_xtilt e : f32) = false -> is_nan (ev_ytilt e : f32) = false ->
    (far (ev_x e) (ev_y e) -> sanitise L e = Abort) /\
    (~ far (ev_x e) (ev_y e) -> exists t e', sanitise L e = Ok (t, e') /\ near (ev_x e') (ev_y e')).
  Proof.
    intros [x y pr xt yt dt vz vr br li] Hx Hy. cbn [ev_x ev_y ev_xtilt ev_ytilt] in *. change (car (sng mix64)) with f32 in *.
    destruct (tilt_ok xt yt Hx Hy) as (t & Et). unfold sanitise. cbn [ev_x ev_y ev_xtilt ev_ytilt ev_pressure ev_dtime ev_linear ev_viewzoom ev_viewrotation ev_barrel].
    rewrite Et. cbn [obind]. cbv zeta. rewrite !(cl_finite L CL). cbn [mix64 wid nar sng dbl num32 num64 nlt nle nofZ car].
    destruct (d_of_Z_exact 10000000000) as [V1 F1]; [lia|]. destruct (d_of_Z_exact (-10000000000)) as [V2 F2]; [lia|].
    destruct (d_of_Z_exact 100000000) as [V3 F3]; [lia|]. destruct (d_of_Z_exact (-100000000)) as [V4 F4]; [lia|].
    set (dt' := if dle _ _ then _ else _). set (pr' := if dle _ _ then _ else _).
    assert (forall a b : f32, fin a -> fin b -> (dlt (d_of_f a) (d_of_Z 100000000) && dlt (d_of_f b) (d_of_Z 100000000) && dlt (d_of_Z (-100000000)) (d_of_f a) && dlt (d_of_Z (-100000000)) (d_of_f b) = true <-> near a b)) as Near.
    { intros a b Fa Fb. destruct (d_of_f_exact a Fa) as [Va Fa']. destruct (d_of_f_exact b Fb) as [Vb Fb']. rewrite !dlt_spec by auto. rewrite Va, Vb, V3, V4.
      unfold near. rewrite !andb_true_iff.
      destruct (Rlt_bool_spec (b2r a) 100000000); destruct (Rlt_bool_spec (b2r b) 100000000); destruct (Rlt_bool_spec (-100000000) (b2r a)); destruct (Rlt_bool_spec (-100000000) (b2r b));
      (split; [intros (((P1 & P2) & P3) & P4); try discriminate; repeat split; auto; apply Rabs_lt; lra|]; intros (_ & _ & A1 & A2); apply Rabs_lt_inv in A1; apply Rabs_lt_inv in A2; repeat split; auto; lra). }
    assert (near (f_of_Z 0) (f_of_Z 0)) as N0. { destruct (f_of_Z_exact 0) as [V F]; [lia|]. split; [auto|]. split; [auto|]. rewrite V, Rabs_R0. split; lra. }
    match goal with |- context [if ?c then mkEvent _ _ _ _ _ _ _ _ _ _ else _] => set (insane := c) end.
    assert (insane = false <-> fin x /\ fin y /\ (Rabs (b2r x) <= 10000000000)%R /\ (Rabs (b2r y) <= 10000000000)%R) as Ins.
    { unfold insane, fin. destruct (is_finite x) eqn:Fx; destruct (is_finite y) eqn:Fy; cbn [negb orb]; try (split; [discriminate|intros (? & ? & _); discriminate]).
      destruct (d_of_f_exact x Fx) as [Va Fa']. destruct (d_of_f_exact y Fy) as [Vb Fb']. rewrite !dlt_spec by auto. rewrite Va, Vb, V1, V2.
      rewrite !orb_false_iff.
      destruct (Rlt_bool_spec 10000000000 (b2r x)); destruct (Rlt_bool_spec 10000000000 (b2r y)); destruct (Rlt_bool_spec (b2r x) (-10000000000)); destruct (Rlt_bool_spec (b2r y) (-10000000000));
      (split; [intros (((P1 & P2) & P3) & P4); try discriminate; repeat split; auto; apply Rabs_le; lra|]; intros (_ & _ & A1 & A2); apply Rabs_le_inv in A1; apply Rabs_le_inv in A2; repeat split; auto; lra). }
    destruct insane.
    - cbn [ev_x ev_y]. split.
      + intros (Fx & Fy & Ax & Ay & _). assert (true = false) by (apply Ins; auto). discriminate.
      + intros _. rewrite (proj2 (Near _ _ (proj1 N0) (proj1 N0)) N0). eexists. eexists. split; [reflexivity|]. exact N0.
    - destruct (proj1 Ins eq_refl) as (Fx & Fy & Ax & Ay). cbn [ev_x ev_y]. pose proof (Near x y Fx Fy) as Nr.
      match goal with |- context [if ?c then Ok _ else Abort] => destruct c end.
      + split; [|intros _; eexists; eexists; split; [reflexivity|]; apply Nr; auto]. destruct (proj1 Nr eq_refl) as (_ & _ & B1 & B2). intros (_ & _ & _ & _ & [B|B]); lra.
      + split; [auto|]. intros Nf. exfalso. apply Nf. split; [auto|]. split; [auto|]. split; [auto|]. split; [auto|].
        destruct (Rle_lt_dec 100000000 (Rabs (b2r x))) as [B|B]; [auto|]. destruct (Rle_lt_dec 100000000 (Rabs (b2r y))) as [B'|B']; [auto|].
        assert (false = true) by (apply Nr; repeat split; auto). discriminate.
  Qed.

  (** ** Theorem: exactly these events abort, on any brush. *)
  Theorem C33_aborts_iff :
    (forall g, e_next E g <> Abort) -> (forall s x, e_draw E s x <> Abort) -> (forall s x y r p, e_get E s x y r p <> Abort) ->
    forall n (b : brush E) w (e : event mix64),
    stroke_to L n b w e = Abort <-> far (ev_x e) (ev_y e) \/ is_nan (ev_xtilt e : f32) = true \/ is_nan (ev_ytilt e : f32) = true.
  Proof.
    intros HN HD HG n b w e.
    assert (forall x : dbl mix64, to_i x <> Abort) as HI.
    { intros x. cbn [mix64 to_i]. unfold d_to_int, d_to_Z. destruct (is_finite _); [|discriminate]. cbv zeta. destruct (_ && _); discriminate. }
    destruct (is_nan (ev_xtilt e : f32)) eqn:Nx.
    { split; [auto|]. intros _. unfold stroke_to, sanitise. rewrite tilt_nan; auto. }
    destruct (is_nan (ev_ytilt e : f32)) eqn:Ny.
    { split; [auto|]. intros _. unfold stroke_to, sanitise. rewrite tilt_nan; auto. }
    destruct (sanitise_iff e Nx Ny) as [A B]. split.
    - intros S. destruct (Classical_Prop.classic (far (ev_x e) (ev_y e))) as [F|F]; [auto|]. exfalso. revert S.
      destruct (B F) as (t & e' & Es & Nr). unfold stroke_to. rewrite Es. cbn [obind].
      match goal with |- context [if ?c then _ else _] => destruct c end; [|apply stroke_rest_na; auto].
      destruct (sanitise_iff (silent_event e') eq_refl eq_refl) as [_ C]. destruct C as (t2 & e2 & Es2 & _).
      + intros (_ & _ & _ & _ & D). destruct Nr as (_ & _ & N1 & N2). cbn [silent_event ev_x ev_y] in D. lra.
      + rewrite Es2. cbn [obind]. apply na_bind; [apply stroke_rest_na; auto|]. intros [[[a b1] w1]|]; [|discriminate]. apply stroke_rest_na; auto.
    - intros [F|[F|F]]; try discriminate. unfold stroke_to. rewrite (A F). reflexivity.
  Qed.

  (** So the claim is true when positions stay below 10^8, or are so large that
      they are ignored ... *)
  Corollary C33_never_aborts_partial :
    (forall g, e_next E g <> Abort) -> (forall s x, e_draw E s x <> Abort) -> (forall s x y r p, e_get E s x y r p <> Abort) ->
    forall n (b : brush E) w (e : event mix64),
    is_nan (ev_xtilt e : f32) = false -> is_nan (ev_ytilt e : f32) = false ->
    (Rabs (b2r (ev_x e : f32)) < 100000000)%R -> (Rabs (b2r (ev_y e : f32)) < 100000000)%R ->
    stroke_to L n b w e <> Abort.
  Proof.
    intros HN HD HG n b w e Nx Ny Ax Ay S. apply C33_aborts_iff in S; auto. destruct S as [(_ & _ & _ & _ & [B|B])|[S|S]]; try lra; congruence.
  Qed.
  (** ... and false in between, for every brush. *)
  Theorem C33_refuted : forall n (b : brush E) w (e : event mix64),
    ev_x e = f_of_Z 1000000000 -> fin (ev_y e : f32) -> (Rabs (b2r (ev_y e : f32)) <= 10000000000)%R -> stroke_to L n b w e = Abort.
  Proof.
    intros n b w e Ex Fy Ay.
    destruct (is_nan (ev_xtilt e : f32)) eqn:Nx; [unfold stroke_to, sanitise; rewrite tilt_nan; auto|].
    destruct (is_nan (ev_ytilt e : f32)) eqn:Ny; [unfold stroke_to, sanitise; rewrite tilt_nan; auto|].
    destruct (sanitise_iff e Nx Ny) as [A _]. unfold stroke_to. rewrite A; [reflexivity|]. rewrite Ex.
    assert (b2r (f_of_Z 1000000000) = 1000000000)%R as V. { vm_compute. lra. }
    split; [reflexivity|]. split; [auto|]. rewrite V. rewrite (Rabs_pos_eq 1000000000) by lra. split; [lra|]. split; [auto|]. left. lra.
  Qed.
End Abort.

(** ** Which brushes get through *)

(** Every point of every curve has been entered. *)
Definition complete {E : env mix64} (b : brush E) : Prop :=
  forall id input n k, 0 <= id < Z.of_nat SETTINGS_COUNT -> 0 <= input < Z.of_nat INPUTS_COUNT ->
    get_mapping_n b id input = Ok n -> 0 <= k < n -> exists xy, get_mapping_point b id input k = Ok xy.
(** The setting is zero and no input acts on it. *)
Definition zero_setting {E : env mix64} (b : brush E) (i : nat) : Prop :=
  is_constant b (Z.of_nat i) = Ok true /\ exists v, get_base_value b (Z.of_nat i) = Ok v /\ neqb v (nofZ 0) = true.
(** A brush that neither smudges nor changes its colour, with a sensible hue. *)
Definition simple {E : env mix64} (b : brush E) : Prop :=
  complete b /\
  (get_state b (Z.of_nat STATE_FLIP) = Ok (nofZ 1) \/ get_state b (Z.of_nat STATE_FLIP) = Ok (nofZ (-1))) /\
  (exists h : f32, get_base_value b (Z.of_nat SET_COLOR_H) = Ok h /\ fin h /\ (Rabs (b2r h) <= 1000000)%R) /\
  zero_setting b SET_SMUDGE /\ zero_setting b SET_CHANGE_COLOR_H /\
  zero_setting b SET_CHANGE_COLOR_HSV_S /\ zero_setting b SET_CHANGE_COLOR_V.

Lemma hsv_ok : forall h sa v : f32, fin h -> (Rabs (b2r h) <= 1000000)%R -> exists c, hsv_to_rgb mix64 (h, sa, v) = Ok c.
Proof.
  intros h sa v F A. unfold hsv_to_rgb. match goal with |- context [if ?c then Ok _ else _] => destruct c end; [eauto|].
  set (w := d_of_f (f_of_d (dsub (d_of_f h) (dfloor (d_of_f h))))).
  enough (exists z, d_to_int (dmul (if deq w (d_of_Z 1) then d_of_Z 0 else w) (d_of_Z 6)) = Ok z) as (z & Ez)
    by (cbv zeta; cbn [mix64 to_i wid nar flo sng dbl num32 num64 nsub nmul nofZ neqb car]; fold w; rewrite Ez; cbn [obind]; eauto).
  unfold w. clear w.
  destruct (d_of_f_exact h F) as [Vh Fh].
  assert (exists g : f64, dfloor (d_of_f h) = g /\ fin g /\ b2r g = IZR (Zfloor (b2r h))) as (g & -> & Fg & Vg).
  { pose proof (dfloor_spec _ Fh) as D. rewrite Vh in D.
    assert (Z.abs (Zfloor (b2r h)) <= 1000001) as Bz.
    { apply Rabs_le_inv in A. assert (-1000000 <= Zfloor (b2r h)) by (apply Zfloor_lub; lra).
      assert (Zfloor (b2r h) < 1000001) by (apply lt_IZR; pose proof (Zfloor_lb (b2r h)); lra). lia. }
    destruct (d_of_Z_exact (Zfloor (b2r h))) as [V1 F1]; [lia|].
    unfold dfloor. destruct (d_of_f h) as [sx|sx| |sx m e Hb] eqn:Eh; try discriminate Fh.
    - eexists. split; [reflexivity|]. split; [reflexivity|]. rewrite <- Vh. cbn. rewrite Zfloor_IZR. reflexivity.
    - rewrite D. eexists. split; [reflexivity|]. split; auto. }
  assert (0 <= b2r (d_of_f h) - b2r g <= 1)%R as Bd.
  { rewrite Vh, Vg. pose proof (Zfloor_lb (b2r h)). pose proof (Zfloor_ub (b2r h)). lra. }
  pose proof big127 as B127. pose proof big1023 as B1023.
  destruct (dsub_spec (d_of_f h) g Fh Fg) as [Vs Fs]; [apply Rabs_le; lra|].
  assert (0 <= b2r (dsub (d_of_f h) g) <= 1)%R as Bs. { rewrite Vs. split; [apply rnd64_ge_r; [apply (rep64_IZR 0); lia|lra]|apply rnd64_le_r; [apply (rep64_IZR 1); lia|lra]]. }
  destruct (f_of_d_spec _ Fs) as [Vn Fn]; [apply Rabs_le; lra|].
  assert (0 <= b2r (f_of_d (dsub (d_of_f h) g)) <= 1)%R as Bn. { rewrite Vn. split; [apply rnd32_ge_r; [apply (rep32_IZR 0); lia|lra]|apply rnd32_le_r; [apply (rep32_IZR 1); lia|lra]]. }
  destruct (d_of_f_exact _ Fn) as [Vw Fw]. rewrite <- Vw in Bn. set (w := d_of_f (f_of_d (dsub (d_of_f h) g))) in *. clearbody w.
  destruct (d_of_Z_exact 0) as [V0 F0]; [lia|]. destruct (d_of_Z_exact 6) as [V6 F6]; [lia|].
  assert (forall u : f64, fin u -> (0 <= b2r u <= 1)%R -> exists z, d_to_int (dmul u (d_of_Z 6)) = Ok z) as K.
  { intros u Fu Bu. destruct (dmul_spec u (d_of_Z 6) Fu F6) as [Vm Fm]; [rewrite V6; apply Rabs_le; lra|].
    assert (0 <= b2r (dmul u (d_of_Z 6)) <= 6)%R as Bm. { rewrite Vm, V6. split; [apply rnd64_ge_r; [apply (rep64_IZR 0); lia|lra]|apply rnd64_le_r; [apply (rep64_IZR 6); lia|lra]]. }
    eexists. unfold d_to_int. apply d_to_Z_ok; [exact Fm|]. rewrite Ztrunc_floor by lra.
    assert (0 <= Zfloor (b2r (dmul u (d_of_Z 6)))) by (apply Zfloor_lub; lra).
    assert (Zfloor (b2r (dmul u (d_of_Z 6))) <= 6) by (apply le_IZR; pose proof (Zfloor_lb (b2r (dmul u (d_of_Z 6)))); lra). unfold INT_MIN, INT_MAX. lia. }
  destruct (deq w (d_of_Z 1)); apply K; auto; rewrite V0; lra.
Qed.

Section Simple.
  Context (L : mathlib mix64) (E : env mix64) (CL : c_library L).
  Context (HN : forall g, exists r, e_next E g = Ok r) (HD : forall s x, exists r, e_draw E s x = Ok r).

  Lemma setting_in : forall (b : brush E) i, settings_ok (b_settings b) -> (i < SETTINGS_COUNT)%nat ->
    exists m, nth_error (b_settings b) i = Some m /\ setting_of b (Z.of_nat i) = Ok m.
  Proof.
    intros b i [Ln _] Hi. destruct (nth_error (b_settings b) i) as [m|] eqn:N; [|apply nth_error_None in N; lia].
    exists m. split; [auto|]. unfold setting_of. destruct (Z.leb_spec 0 (Z.of_nat i)); [|lia]. destruct (Z.ltb_spec (Z.of_nat i) (Z.of_nat SETTINGS_COUNT)); [|lia].
    cbn [andb]. rewrite Nat2Z.id, N. reflexivity.
  Qed.
  Lemma complete_evaluates : forall b : brush E, settings_ok (b_settings b) -> complete b -> evaluates (b_settings b).
  Proof.
    intros b So C i m N data Ld. assert (i < SETTINGS_COUNT)%nat as Hi by (destruct So as [<- _]; apply nth_error_Some; congruence).
    destruct (proj2 (setting_of_ok b (Z.of_nat i) m So ltac:(destruct (setting_in b i So Hi) as (m' & N' & ->); congruence))) as (_ & es & Hm).
    pose proof (edited_good _ _ _ _ Hm) as G.
    set (pnt := fun j k => match last_point es j k with Some p => p | None => (nofZ 0, nofZ 0) end).
    set (curves := map (fun j => map (fun k => pnt (Z.of_nat j) (Z.of_nat k)) (seq 0 (Z.to_nat (last_n es (Z.of_nat j))))) (seq 0 INPUTS_COUNT)).
    destruct (C21_evaluation _ _ es m curves data Hm) as (r & -> & _); [|exact Ld|eauto].
    split; [unfold curves; rewrite map_length, seq_length; reflexivity|]. intros j Hj.
    assert (nth j curves [] = map (fun k => pnt (Z.of_nat j) (Z.of_nat k)) (seq 0 (Z.to_nat (last_n es (Z.of_nat j))))) as ->.
    { unfold curves. erewrite nth_indep by (rewrite map_length, seq_length; exact Hj).
      rewrite (map_nth (fun j => map (fun k => pnt (Z.of_nat j) (Z.of_nat k)) (seq 0 (Z.to_nat (last_n es (Z.of_nat j))))) (seq 0 INPUTS_COUNT) 0%nat j). rewrite seq_nth by exact Hj. reflexivity. }
    destruct (control_ok _ _ _ _ (Z.of_nat j) G ltac:(lia)) as (p & Ep & _ & Np & Rp & _ & _ & Pp).
    rewrite map_length, seq_length. split; [lia|]. intros k Hk.
    rewrite (nth_indep _ _ (pnt (Z.of_nat j) (Z.of_nat 0))) by (rewrite map_length, seq_length; exact Hk).
    rewrite (map_nth (fun k => pnt (Z.of_nat j) (Z.of_nat k)) _ 0%nat), seq_nth by exact Hk. cbn [Nat.add].
    destruct (C (Z.of_nat i) (Z.of_nat j) (cp_n p) (Z.of_nat k)) as (xy & Exy); try lia.
    - unfold get_mapping_n. destruct (Z.ltb_spec (Z.of_nat i) 0); [lia|]. rewrite Nat2Z.id, N. unfold mapping_get_n. rewrite Ep. reflexivity.
    - unfold get_mapping_point in Exy. destruct (setting_in b i So Hi) as (m' & N' & Es). rewrite Es in Exy. cbn [obind] in Exy.
      assert (m' = m) as -> by congruence. unfold mapping_get_point in Exy. rewrite Ep in Exy. cbn [obind] in Exy.
      destruct (negb _); [discriminate|]. destruct (negb _); [discriminate|]. destruct (Pp (Z.of_nat k)) as [X _]; [lia|]. unfold cell in Exy. rewrite X in Exy.
      destruct (Z.ltb_spec (Z.of_nat k) 0); [lia|]. unfold pt_at in Exy. unfold pnt. destruct (last_point es (Z.of_nat j) (Z.of_nat k)); [reflexivity|]. cbn in Exy. discriminate.
  Qed.
  Lemma simple_plain : forall b : brush E, shape b -> simple b -> plain b.
  Proof.
    intros b Sh (C & F & (h & Eh & Fh & Ah) & Z1 & Z2 & Z3 & Z4). pose proof Sh as (_ & So & _).
    split; [exact Sh|]. split; [apply complete_evaluates; auto|]. split; [|split].
    - destruct F as [F|F]; unfold get_state in F; cbn in F; injection F as F; [left|right]; exact F.
    - assert (base b SET_COLOR_H = h) as Hh.
      { destruct (setting_in b SET_COLOR_H So ltac:(vm_compute; lia)) as (m & N & Es). unfold get_base_value in Eh. rewrite Es in Eh. cbn [obind] in Eh. injection Eh as <-.
        unfold base. rewrite N. reflexivity. }
      rewrite Hh. apply hsv_ok; auto.
    - assert (forall i, (i < SETTINGS_COUNT)%nat -> zero_setting b i -> off b i) as O.
      { intros i Hi (Ci & v & Ev & Zv). destruct (setting_in b i So Hi) as (m & N & Es). unfold is_constant in Ci. unfold get_base_value in Ev. rewrite Es in *. cbn [obind] in *.
        injection Ci as Ci. injection Ev as <-. unfold off, Brush.constant, base. rewrite N. split; [exact Ci|exact Zv]. }
      repeat constructor; apply O; auto; vm_compute; lia.
  Qed.

  (** One event after the other; [None]: the [n] dabs granted to each loop were
      not enough. *)
  Definition strokes (n : nat) (es : list (event mix64)) (b : brush E) (w : world E) : outcome (option (brush E * world E)) :=
    ofold (fun a e => match a with
                      | Some (b, w) => let* r := stroke_to L n b w e in Ok (option_map (fun x => let '(_, b, w) := x in (b, w)) r)
                      | None => Ok None
                      end) es (Some (b, w)).
  Definition acceptable (e : event mix64) : Prop :=
    ~ far (ev_x e) (ev_y e) /\ is_nan (ev_xtilt e : f32) = false /\ is_nan (ev_ytilt e : f32) = false.

  Lemma stroke_returns : forall n (b : brush E) w e, plain b -> acceptable e -> exists r, stroke_to L n b w e = Ok r /\ kept r.
  Proof.
    intros n b w e P (Nf & Nx & Ny).
    assert (forall b w t e, plain b -> exists r, stroke_rest (E := E) L n b w t e = Ok r /\ kept r) as R.
    { intros b0 w0 t0 e0 P0.
      assert (exists z, to_i (m := mix64) (wid (m := mix64) (nofZ 1)) = Ok z) as Q1 by (exists 1; vm_compute; reflexivity).
      assert (exists z, to_i (m := mix64) (wid (m := mix64) (nofZ (-1))) = Ok z) as Q2 by (exists (-1); vm_compute; reflexivity).
      assert (nmul (a := sng mix64) (nofZ 1) (nofZ (-1)) = nofZ (-1)) as Q3 by (apply B2SF_inj; vm_compute; reflexivity).
      assert (nmul (a := sng mix64) (nofZ (-1)) (nofZ (-1)) = nofZ 1) as Q4 by (apply B2SF_inj; vm_compute; reflexivity).
      refine (stroke_rest_returns L Q1 Q2 Q3 Q4 _ HN HD n b0 w0 t0 e0 P0).
      intros v H0. cbn in v. destruct v as [[]|[]| |[] m x Hb]; try discriminate H0; reflexivity. }
    destruct (sanitise_iff L CL e Nx Ny) as [_ B]. destruct (B Nf) as (t & e' & Es & Nr). unfold stroke_to. rewrite Es. cbn [obind].
    match goal with |- context [if ?c then _ else _] => destruct c end; [|apply R; auto].
    destruct (sanitise_iff L CL (silent_event e') eq_refl eq_refl) as [_ C]. destruct C as (t2 & e2 & Es2 & _).
    { intros (_ & _ & _ & _ & D). destruct Nr as (_ & _ & N1 & N2). cbn [silent_event ev_x ev_y] in D. lra. }
    rewrite Es2. cbn [obind]. destruct (R b w t2 e2 P) as (r & -> & K). cbn [obind]. destruct r as [((a, b1), w1)|]; [|eexists; split; [reflexivity|]; intros ? ? ? H; discriminate].
    apply R. apply (K a b1 w1 eq_refl).
  Qed.

  (** Such a brush takes every sequence of such events. *)
  Theorem C33_returns_partial : forall n (b : brush E) w es,
    reachable L b -> simple b -> Forall acceptable es -> exists r, strokes n es b w = Ok r.
  Proof.
    intros n b w es Rb Sb Fe. assert (plain b) as P by (apply simple_plain; [eapply reachable_shape; eauto|auto]). clear Rb Sb. revert b w P.
    unfold strokes. induction Fe as [|e es He Fe IH]; intros b w P; cbn [ofold]; [eauto|].
    destruct (stroke_returns n b w e P He) as (r & -> & K). cbn [obind]. destruct r as [((a, b1), w1)|]; cbn [option_map].
    - apply IH. apply (K a b1 w1 eq_refl).
    - clear. induction es as [|e es IH]; cbn [ofold]; eauto.
  Qed.
End Simple.

(** ** Examples *)
Lemma toy_library : c_library toy_lib.
Proof.
  constructor.
  - reflexivity.
  - reflexivity.
  - change (m_pi toy_lib : f64) with (d_of_Z 3). destruct (d_of_Z_exact 3) as [-> F]; [lia|]. split; [exact F|lra].
  - intros x y _ _. change (atan2_ toy_lib x y : f64) with (d_of_Z 0). destruct (d_of_Z_exact 0) as [-> F]; [lia|]. split; [exact F|]. rewrite Rabs_R0. lra.
  - intros x y Fx Fy Ax Ay. change (hypot_ toy_lib x y : f64) with (dadd (Babs x) (Babs y)).
    assert (forall z : f64, fin z -> fin (Babs z : f64) /\ b2r (Babs z : f64) = Rabs (b2r z)) as A.
    { intros z Fz. split; [unfold fin; rewrite is_finite_Babs; exact Fz|apply B2R_Babs]. }
    destruct (A x Fx) as [Fa Va]. destruct (A y Fy) as [Fb Vb]. pose proof big1023. pose proof (Rabs_pos (b2r x)). pose proof (Rabs_pos (b2r y)).
    destruct (dadd_spec (Babs x) (Babs y) Fa Fb) as [V F]; rewrite Va, Vb in *; [rewrite Rabs_pos_eq; lra|].
    split; [exact F|]. rewrite V. apply small64; [apply (rep64_IZR 2); lia|]. rewrite Rabs_pos_eq; lra.
Qed.
Lemma toy_next : forall g, exists r, e_next toy g = Ok r.
Proof. intros g. eexists. reflexivity. Qed.
Lemma toy_draw : forall s x, exists r, e_draw toy s x = Ok r.
Proof. intros s x. eexists. reflexivity. Qed.

(** A brush whose radius and opacity follow the pressure: checked by computation
    to be simple. *)
Definition dynamic : calls :=
  [set_base SET_OPAQUE f1; set_base SET_DABS_PER_ACTUAL_RADIUS f1; set_base SET_COLOR_H (flit 7 10); set_base SET_COLOR_S f1; set_base SET_COLOR_V f1;
   CMapN (M := mix64) (zid SET_OPAQUE_MULTIPLY) 0 2;
   CMapPoint (M := mix64) (zid SET_OPAQUE_MULTIPLY) 0 0 f0 f0; CMapPoint (M := mix64) (zid SET_OPAQUE_MULTIPLY) 0 1 f1 f1].
Definition complete_b (b : brush toy) : bool :=
  forallb (fun id => forallb (fun input =>
    match get_mapping_n b id input with
    | Ok n => forallb (fun k => match get_mapping_point b id input k with Ok _ => true | _ => false end) (zrange 0 (Z.to_nat n))
    | _ => true
    end) (zrange 0 INPUTS_COUNT)) (zrange 0 SETTINGS_COUNT).
Definition zero_b (b : brush toy) (i : nat) : bool :=
  match is_constant b (Z.of_nat i), get_base_value b (Z.of_nat i) with
  | Ok true, Ok v => neqb v (nofZ 0)
  | _, _ => false
  end.
Definition simple_b (b : brush toy) : bool :=
  complete_b b &&
  match get_state b (Z.of_nat STATE_FLIP) with Ok v => feq v (f_of_Z (-1)) && negb (feq v f0) | _ => false end &&
  match get_base_value b (Z.of_nat SET_COLOR_H) with Ok h => feq h (flit 7 10) | _ => false end &&
  forallb (zero_b b) [SET_SMUDGE; SET_CHANGE_COLOR_H; SET_CHANGE_COLOR_HSV_S; SET_CHANGE_COLOR_V].
Lemma complete_check : forall b : brush toy, complete_b b = true -> complete b.
Proof.
  intros b H id input n k Hid Hin Hn Hk. unfold complete_b in H. rewrite forallb_forall in H. specialize (H id). rewrite forallb_forall in H.
  specialize (H ltac:(apply in_zrange; lia) input ltac:(apply in_zrange; lia)). rewrite Hn in H. rewrite forallb_forall in H.
  specialize (H k ltac:(apply in_zrange; lia)). cbv beta in H. destruct (get_mapping_point b id input k) as [xy| |]; [eauto|discriminate|discriminate].
Qed.
Lemma feq_same : forall a b : f32, feq a b = true -> feq a f0 = false -> a = b.
Proof.
  intros a b H N. destruct (is_finite a) eqn:Fa; destruct (is_finite b) eqn:Fb.
  - unfold feq, Beqb in H, N. apply B2SF_inj.
    destruct a as [[]|[]| |[] ma ea Ha]; try discriminate; destruct b as [[]|[]| |[] mb eb Hb]; try discriminate; cbn in H |- *;
    unfold SpecFloat.SFeqb, SpecFloat.SFcompare in H; destruct (Z.compare_spec ea eb); try discriminate H; subst;
    destruct (Pos.compare_cont Eq ma mb) eqn:C; try discriminate H; apply Pos.compare_eq in C; subst; reflexivity.
  - destruct a as [[]|[]| |[]]; try discriminate; destruct b as [[]|[]| |[]]; discriminate.
  - destruct a as [[]|[]| |[]]; try discriminate; destruct b as [[]|[]| |[]]; discriminate.
  - destruct a as [[]|[]| |[]]; try discriminate; destruct b as [[]|[]| |[]]; try discriminate; reflexivity.
Qed.
Lemma simple_check : forall b : brush toy, simple_b b = true -> simple b.
Proof.
  intros b H. unfold simple_b in H. apply andb_prop in H. destruct H as [H Z]. apply andb_prop in H. destruct H as [H Hh]. apply andb_prop in H. destruct H as [C F].
  split; [apply complete_check; exact C|]. split.
  - right. destruct (get_state b (Z.of_nat STATE_FLIP)) as [v| |]; try discriminate F. apply andb_prop in F. destruct F as [F G]. f_equal. apply feq_same; [exact F|].
    destruct (feq v f0); [discriminate G|reflexivity].
  - split.
    + destruct (get_base_value b (Z.of_nat SET_COLOR_H)) as [h| |]; try discriminate Hh. exists h. split; [reflexivity|].
      assert (h = flit 7 10) as ->.
      { apply feq_same; [exact Hh|]. destruct (feq h f0) eqn:G; [|reflexivity]. cbn in h. destruct h as [[]|[]| |[]]; try discriminate G; discriminate Hh. }
      split; [reflexivity|]. assert (b2r (flit 7 10) <= 1000000 /\ -1000000 <= b2r (flit 7 10))%R by (split; vm_compute; lra). apply Rabs_le. lra.
    + cbn [forallb] in Z. repeat (apply andb_prop in Z; let A := fresh "A" in destruct Z as [A Z]).
      assert (forall i, zero_b b i = true -> zero_setting b i) as K.
      { intros i Hi. unfold zero_b in Hi. unfold zero_setting. destruct (is_constant b (Z.of_nat i)) as [[]| |]; try discriminate Hi.
        destruct (get_base_value b (Z.of_nat i)) as [v| |]; try discriminate Hi. split; [reflexivity|]. eauto. }
      repeat split; apply K; assumption.
Qed.

Lemma near_event : forall x y p ms, Z.abs x < 16777216 -> Z.abs y < 16777216 -> acceptable (pen x y p ms).
Proof.
  intros x y p ms Hx Hy. split; [|split; reflexivity]. intros (_ & _ & _ & _ & [D|D]); cbn [pen ev_x ev_y] in D.
  - destruct (f_of_Z_exact x) as [V _]; [lia|]. rewrite V, <- abs_IZR in D. apply le_IZR in D. lia.
  - destruct (f_of_Z_exact y) as [V _]; [lia|]. rewrite V, <- abs_IZR in D. apply le_IZR in D. lia.
Qed.

(** ... it takes any list of events with coordinates of less than 2^24 ... *)
Example C33_case : exists b w, session 3 dynamic = Ok (Some (b, w)) /\
  forall n es, Forall (fun e => exists x y p ms, e = pen x y p ms /\ Z.abs x < 16777216 /\ Z.abs y < 16777216) es ->
    exists r, strokes toy_lib toy n es b w = Ok r.
Proof.
  destruct (after_ok 3 dynamic (fun b _ => simple_b b) ltac:(vm_compute; reflexivity)) as (b & w & S & C). exists b, w. split; [exact S|].
  intros n es Fe. apply C33_returns_partial; [exact toy_library|exact toy_next|exact toy_draw| |apply simple_check; exact C|].
  - eapply session_reachable; [|exact S]. lia.
  - eapply Forall_impl; [|exact Fe]. intros e (x & y & p & ms & -> & Hx & Hy). apply near_event; auto.
Qed.
(** ... and aborts on a far one, as every brush does. *)
Example C33_case_far : forall n (b : brush toy) w, stroke_to toy_lib n b w (pen 1000000000 5 50 10) = Abort.
Proof.
  intros n b w. apply C33_refuted; [exact toy_library|reflexivity|reflexivity|].
  assert (b2r (ev_y (pen 1000000000 5 50 10) : f32) = 5)%R as -> by (apply (f_of_Z_exact 5); lia). rewrite Rabs_pos_eq; lra.
Qed.
(** A curve with a point that was never entered: undefined behaviour. *)
Theorem C33_undefined_refuted : exists (b : brush toy) w e, reachable toy_lib b /\ acceptable e /\ stroke_to toy_lib 20 b w e = UB.
Proof.
  destruct (after_ok 3 (dynamic ++ [CMapN (M := mix64) (zid SET_OPAQUE_MULTIPLY) 0 3; CStroke (M := mix64) (pen 1 1 50 10)])
    (fun b w => match stroke_to toy_lib 20 b w (pen 5 5 150 10) with UB => true | _ => false end) ltac:(vm_compute; reflexivity)) as (b & w & S & C).
  exists b, w, (pen 5 5 150 10). split; [eapply session_reachable; [|exact S]; lia|]. split; [apply near_event; lia|].
  destruct (stroke_to toy_lib 20 b w (pen 5 5 150 10)) as [x| |]; [discriminate C|discriminate C|reflexivity].
Qed.

Print Assumptions C33_aborts_iff.
Print Assumptions C33_never_aborts_partial.
Print Assumptions C33_refuted.
Print Assumptions C33_returns_partial.
Print Assumptions C33_undefined_refuted.
