(** [render_dab_mask] never fails on reasonable dabs: every per-pixel value is
    a number between 0 and 2^15. *)
From Verif Require Import Base F32 F32Proofs Blend BlendProofs BlendColorProofs Mask MaskProofs OpaProofs AaProofs RrProofs.
From Coq Require Import Reals Lra.
From Flocq Require Import Core.Core IEEE754.BinarySingleNaN.
Open Scope R_scope.

Record dab_ok (trig : trig_oracle) (x y radius hardness softness aspect angle : f32) : Prop := {
  ok_x : bd x 20;
  ok_y : bd y 20;
  ok_r : fin radius /\ / 16 <= b2r radius <= 1048576;
  ok_h : fin hardness /\ bpow radix2 (-126) <= b2r hardness;
  ok_s : fin softness /\ 0 <= b2r softness <= 1;
  ok_a : bd aspect 20;
  ok_t : trig_ok (trig angle) }.

Lemma clamp_h : forall h, fin h -> bpow radix2 (-126) <= b2r h ->
  fin (clampf h f0 f1) /\ bpow radix2 (-126) <= b2r (clampf h f0 f1) <= 1.
Proof.
  intros h F H. destruct f1_val as (V1 & F1). destruct f0_val as (V0 & F0).
  pose proof (bpow_gt_0 radix2 (-126)) as P.
  assert (bpow radix2 (-126) <= 1) as L by (apply (bpow_le radix2 _ 0); lia).
  unfold clampf. rewrite !flt_spec by auto. rewrite V1, V0.
  destruct (Rlt_bool_spec 1 (b2r h)); [rewrite V1; split; auto; lra|].
  rewrite Rlt_bool_false by lra. auto.
Qed.

(** the box *)
Lemma fringe_ap : forall r, fin r -> / 16 <= b2r r <= 1048576 ->
  bd (fadd r f1) 21 /\ b2r r < b2r (fadd r f1) /\
  (b2r r < 3 -> Rabs (b2r (fadd r f1) - (b2r r + 1)) <= eta).
Proof.
  intros r F H. destruct f1_val as (V1 & F1).
  assert (bd r 20) as Br. { split; auto. change (bpow radix2 20) with 1048576. apply Rabs_le. lra. }
  assert (bd (fadd r f1) (20 + 1)) as B by (apply bd_add; auto; [apply bd_weak with 0%Z; [apply bd_one|lia]|lia]).
  split; [exact B|].
  destruct (fadd_spec r f1 F F1) as (E & _).
  { rewrite V1. apply Rle_trans with (bpow radix2 21); [change (bpow radix2 21) with 2097152; apply Rabs_le; lra|apply bpow_le; lia]. }
  rewrite V1 in E. split.
  - rewrite E.
    assert (Rabs (b2r r + 1) <= bpow radix2 21) as M by (change (bpow radix2 21) with 2097152; apply Rabs_le; lra).
    pose proof (rnd32_err _ _ M) as X. change (bpow radix2 (21 - 25)) with (/ 16) in X.
    assert (-125 <= 21)%Z as L by lia. specialize (X L). apply Rabs_le_inv in X. lra.
  - intros L. rewrite E. apply big64. apply Rabs_le. lra.
Qed.

Lemma floor_of_f : forall v : f32, bd v 22 ->
  exists z, d_floor_int (d_of_f v) = Ok z /\ (IZR z <= b2r v < IZR z + 1) /\ (-4194304 <= z <= 4194304)%Z.
Proof.
  intros v (F & H). destruct (d_of_f_exact v F) as (E & FD).
  change (bpow radix2 22) with 4194304 in H. apply Rabs_le_inv in H.
  pose proof (Zfloor_lb (b2r v)) as L1. pose proof (Zfloor_ub (b2r v)) as L2.
  assert (-4194304 <= Zfloor (b2r v) <= 4194304)%Z as B.
  { split.
    - apply (Zfloor_lub (-4194304)). simpl. lra.
    - apply le_IZR. lra. }
  exists (Zfloor (b2r v)). split; [|auto].
  rewrite <- E. apply d_floor_int_ok; auto. rewrite E. unfold INT_MIN, INT_MAX. lia.
Qed.

Lemma dab_box_ok : forall x y r, bd x 20 -> bd y 20 -> fin r -> / 16 <= b2r r <= 1048576 ->
  exists x0 y0 x1 y1, dab_box x y r = Ok (Z.max x0 0, Z.max y0 0, Z.min x1 63, Z.min y1 63) /\
    (IZR x0 <= b2r (fsub x (fadd r f1)) < IZR x0 + 1) /\ (IZR y0 <= b2r (fsub y (fadd r f1)) < IZR y0 + 1) /\
    (IZR x1 <= b2r (fadd x (fadd r f1)) < IZR x1 + 1) /\ (IZR y1 <= b2r (fadd y (fadd r f1)) < IZR y1 + 1) /\
    (-4194304 <= x0 <= 4194304)%Z /\ (-4194304 <= y0 <= 4194304)%Z /\
    (-4194304 <= x1 <= 4194304)%Z /\ (-4194304 <= y1 <= 4194304)%Z.
Proof.
  intros x y r Bx By F H. destruct (fringe_ap r F H) as (Bf & _).
  assert (forall v, bd v 20 -> bd (fsub v (fadd r f1)) 22 /\ bd (fadd v (fadd r f1)) 22) as K.
  { intros v Bv. change 22%Z with (21 + 1)%Z. split; [apply bd_sub|apply bd_add]; auto; try lia; apply bd_weak with 20%Z; auto; lia. }
  destruct (K x Bx) as (K1 & K2). destruct (K y By) as (K3 & K4).
  destruct (floor_of_f _ K1) as (x0 & E1 & ? & ?). destruct (floor_of_f _ K3) as (y0 & E2 & ? & ?).
  destruct (floor_of_f _ K2) as (x1 & E3 & ? & ?). destruct (floor_of_f _ K4) as (y1 & E4 & ? & ?).
  exists x0, y0, x1, y1. split; [|tauto]. unfold dab_box. rewrite E1, E2, E3, E4. reflexivity.
Qed.

(** inside the box of a small dab the pixel is near the centre *)
Lemma near_pixel : forall v r p lo hi, bd v 20 -> fin r -> / 16 <= b2r r -> b2r r < 3 ->
  IZR lo <= b2r (fsub v (fadd r f1)) < IZR lo + 1 -> IZR hi <= b2r (fadd v (fadd r f1)) < IZR hi + 1 ->
  (Z.max lo 0 <= p <= Z.min hi 63)%Z ->
  Rabs (b2r (fsub v (f_of_Z p))) <= 8.
Proof.
  intros v r p lo hi Bv F H1 H2 Lo Hi Hp.
  destruct (fringe_ap r F ltac:(lra)) as (Bf & _ & X). specialize (X H2). apply Rabs_le_inv in X. unfold eta in X.
  destruct (f_of_Z_exact p) as (Ep & Fp); [lia|].
  assert (Ip1 : IZR lo <= IZR p) by (apply IZR_le; lia). assert (Ip2 : IZR p <= IZR hi) by (apply IZR_le; lia).
  assert (Ip3 : 0 <= IZR p) by (apply (IZR_le 0); lia). assert (Ip4 : IZR p <= 63) by (apply (IZR_le p 63); lia).
  destruct Bv as (Fv & Hv). destruct Bf as (Ff & Hf).
  change (bpow radix2 20) with 1048576 in Hv. pose proof (Rabs_le_inv _ _ Hv) as Hv'.
  assert (Big : forall z, Rabs z <= 2097152 -> Rabs z <= bpow radix2 127 /\ Rabs (rnd32 z - z) <= / 16).
  { intros z Hz. split.
    - apply Rle_trans with (bpow radix2 21); [exact Hz|apply bpow_le; lia].
    - change (/ 16) with (bpow radix2 (21 - 25)). apply rnd32_err; [exact Hz|lia]. }
  destruct (Big (b2r v - b2r (fadd r f1))) as (B1 & B2); [apply Rabs_le; lra|].
  destruct (Big (b2r v + b2r (fadd r f1))) as (B3 & B4); [apply Rabs_le; lra|].
  destruct (fsub_spec v (fadd r f1) Fv Ff B1) as (E1 & _). destruct (fadd_spec v (fadd r f1) Fv Ff B3) as (E2 & _).
  apply Rabs_le_inv in B2, B4. rewrite E1 in Lo. rewrite E2 in Hi.
  destruct (Big (b2r v - b2r (f_of_Z p))) as (B5 & B6); [rewrite Ep; apply Rabs_le; lra|].
  destruct (fsub_spec v (f_of_Z p) Fv Fp B5) as (E3 & _). apply Rabs_le_inv in B6. rewrite E3. rewrite Ep in *.
  apply Rabs_le. lra.
Qed.

Lemma rr_nonneg : forall trig x y r h s a angle xp yp x0 y0 x1 y1,
  dab_ok trig x y r h s a angle -> dab_box x y r = Ok (x0, y0, x1, y1) ->
  (x0 <= xp <= x1)%Z -> (y0 <= yp <= y1)%Z ->
  nonneg_f (rr_at trig x y r a angle xp yp).
Proof.
  intros trig x y r h s a angle xp yp x0 y0 x1 y1 D B Hx Hy.
  destruct D as [Bx By (Fr & Hr) _ _ Ba T].
  destruct (dab_box_ok x y r Bx By Fr Hr) as (X0 & Y0 & X1 & Y1 & E & P1 & P2 & P3 & P4 & _).
  rewrite B in E. injection E as -> -> -> ->.
  destruct (Rlt_le_dec (b2r r) 3) as [L|L].
  - unfold rr_at. fold (fix_aspect a). destruct (fix_aspect_ok a Ba) as (Ba' & La).
    destruct (trig angle) as (cs, sn) eqn:ET.
    destruct (oor_ok r Fr Hr) as (Bo & No).
    destruct (f_of_Z_exact 3) as (V3 & F3); [lia|]. fold f3 in V3, F3.
    rewrite flt_spec, V3 by auto. rewrite Rlt_bool_true by exact L.
    apply aa_ok; auto; try lia; try apply Bx; try apply By.
    + eapply near_pixel; [exact Bx|exact Fr|lra|exact L|exact P1|exact P3|exact Hx].
    + eapply near_pixel; [exact By|exact Fr|lra|exact L|exact P2|exact P4|exact Hy].
    + (* 1/r^2 >= 1/10 *)
      destruct f1_val as (V1 & F1).
      assert (/ 256 <= b2r r * b2r r <= 9) as S.
      { split; [apply Rle_trans with (/ 16 * / 16); [lra|apply Rmult_le_compat; lra]|].
        apply Rle_trans with (3 * 3); [apply Rmult_le_compat; lra|lra]. }
      destruct (fmul_spec r r Fr Fr) as (E1 & G1).
      { rewrite Rabs_pos_eq by lra. apply Rle_trans with (bpow radix2 4); [simpl; lra|apply bpow_le; lia]. }
      assert (/ 256 <= rnd32 (b2r r * b2r r) <= 9) as R.
      { split; [apply rnd32_ge_r; [change (/ 256) with (bpow radix2 (-8)); apply rep32_bpow; lia|lra]|].
        apply rnd32_le_r; [apply (rep32_IZR 9); lia|lra]. }
      assert (0 <= 1 / rnd32 (b2r r * b2r r) <= 256) as Q1.
      { split; [apply div_pos; lra|apply div_le; lra]. }
      destruct (fdiv_spec f1 (fmul r r) F1) as (E2 & _).
      { lra. }
      { rewrite V1, E1, Rabs_pos_eq by tauto. apply Rle_trans with (bpow radix2 8); [simpl; lra|apply bpow_le; lia]. }
      rewrite E2, V1, E1.
      assert (7 / 64 <= 1 / rnd32 (b2r r * b2r r)) as Q2.
      { unfold Rdiv. rewrite Rmult_1_l. apply Rle_trans with (/ 9); [lra|]. apply Rinv_le_contravar; lra. }
      assert (7 / 64 <= rnd32 (1 / rnd32 (b2r r * b2r r))) as Q3.
      { apply rnd32_ge_r; [|exact Q2]. replace (7 / 64) with (IZR 7 * bpow radix2 (-6)) by (simpl; lra). apply rep32_scaled; lia. }
      lra.
  - apply rr_big; auto; try lia. lra.
Qed.

Lemma mask_value_ok : forall trig x y r h s a angle xp yp x0 y0 x1 y1,
  dab_ok trig x y r h s a angle -> dab_box x y r = Ok (x0, y0, x1, y1) ->
  (x0 <= xp <= x1)%Z -> (y0 <= yp <= y1)%Z ->
  exists v, mask_value trig x y r (clampf h f0 f1) s a angle xp yp = Ok v /\ (0 <= v <= 32768)%Z.
Proof.
  intros trig x y r h s a angle xp yp x0 y0 x1 y1 D B Hx Hy.
  pose proof (rr_nonneg _ _ _ _ _ _ _ _ _ _ _ _ _ _ D B Hx Hy) as N.
  destruct D as [_ _ _ (Fh & Hh) (Fs & Hs) _ _].
  destruct (clamp_h h Fh Hh) as (Fc & Hc).
  apply opa_u16_range; auto.
Qed.

Lemma h_not_zero : forall h, fin h -> bpow radix2 (-126) <= b2r h -> feq (clampf h f0 f1) f0 = false.
Proof.
  intros h F H. destruct (clamp_h h F H) as (G & L). destruct f0_val as (V0 & F0).
  rewrite feq_spec by auto. rewrite V0. apply Req_bool_false. pose proof (bpow_gt_0 radix2 (-126)). lra.
Qed.

(** how wide a box can be *)
Lemma box_width : forall v r lo hi, bd v 20 -> fin r -> / 16 <= b2r r <= 22 ->
  IZR lo <= b2r (fsub v (fadd r f1)) < IZR lo + 1 -> IZR hi <= b2r (fadd v (fadd r f1)) < IZR hi + 1 ->
  (hi - lo <= 47)%Z.
Proof.
  intros v r lo hi Bv F H Lo Hi.
  destruct (fringe_ap r F ltac:(lra)) as (Bf & _).
  destruct f1_val as (V1 & F1).
  assert (b2r (fadd r f1) <= 23) as M.
  { destruct (fadd_spec r f1 F F1) as (E & _).
    { rewrite V1. apply Rle_trans with (bpow radix2 5); [simpl; apply Rabs_le; lra|apply bpow_le; lia]. }
    rewrite E, V1. apply rnd32_le_r; [apply (rep32_IZR 23); lia|lra]. }
  assert (0 <= b2r (fadd r f1)) as M0.
  { destruct (fringe_ap r F ltac:(lra)) as (_ & X & _). lra. }
  destruct Bv as (Fv & Hv). change (bpow radix2 20) with 1048576 in Hv. apply Rabs_le_inv in Hv.
  assert (Big : forall z, Rabs z <= 2097152 -> Rabs z <= bpow radix2 127 /\ Rabs (rnd32 z - z) <= / 16).
  { intros z Hz. split.
    - apply Rle_trans with (bpow radix2 21); [exact Hz|apply bpow_le; lia].
    - change (/ 16) with (bpow radix2 (21 - 25)). apply rnd32_err; [exact Hz|lia]. }
  destruct (Big (b2r v - b2r (fadd r f1))) as (B1 & B2); [apply Rabs_le; lra|].
  destruct (Big (b2r v + b2r (fadd r f1))) as (B3 & B4); [apply Rabs_le; lra|].
  destruct (fsub_spec v (fadd r f1) Fv (proj1 Bf) B1) as (E1 & _). destruct (fadd_spec v (fadd r f1) Fv (proj1 Bf) B3) as (E2 & _).
  apply Rabs_le_inv in B2, B4. rewrite E1 in Lo. rewrite E2 in Hi.
  assert (IZR hi - IZR lo < 48) as X by lra. rewrite <- minus_IZR in X. apply lt_IZR in X. lia.
Qed.

Lemma box_lo : forall v r lo, bd v 20 -> fin r -> / 16 <= b2r r <= 1048576 ->
  IZR lo <= b2r (fsub v (fadd r f1)) -> (lo <= 1048576)%Z.
Proof.
  intros v r lo (Fx & Hx) Fr Hr P1. destruct (fringe_ap r Fr Hr) as ((Fa & Ha) & B & _).
  apply Rabs_le_inv in Hx. change (bpow radix2 20) with 1048576 in Hx.
  change (bpow radix2 21) with 2097152 in Ha. apply Rabs_le_inv in Ha.
  apply le_IZR. eapply Rle_trans; [exact P1|].
  destruct (fsub_spec v (fadd r f1) Fx Fa) as (E & _).
  - apply Rle_trans with (bpow radix2 22); [change (bpow radix2 22) with 4194304; apply Rabs_le; lra|apply bpow_le; lia].
  - rewrite E. apply rnd32_le_r; [apply (rep32_IZR 1048576); lia|]. lra.
Qed.

Local Open Scope Z_scope.

Lemma render_fit : forall trig x y r h s a angle x0 y0 x1 y1,
  dab_ok trig x y r h s a angle -> dab_box x y r = Ok (x0, y0, x1, y1) ->
  let V := box_vals (mask_value trig x y r (clampf h f0 f1) s a angle) x0 y0 x1 y1 in
  plen (final V x0 y0 x1 y1) + 2 <= MASK_CAP ->
  render_dab_mask trig x y r h s a angle = Ok (fst (final V x0 y0 x1 y1) ++ [0; 0]).
Proof.
  intros trig x y r h s a angle x0 y0 x1 y1 D B V Hfit. pose proof D as [Bx By (Fr & Hr) (Fh & Hh) _ _ _].
  destruct (dab_box_ok x y r Bx By Fr Hr) as (X0 & Y0 & X1 & Y1 & E & P1 & P2 & P3 & P4 & Q1 & Q2 & Q3 & Q4).
  unfold render_dab_mask. rewrite h_not_zero by auto. rewrite B. cbn [obind].
  rewrite B in E. injection E as -> -> -> ->.
  apply (encode_ok _ V); auto.
  - intros i j Hi Hj. unfold V. rewrite box_vals_in by auto.
    destruct (mask_value_ok _ _ _ _ _ _ _ _ i j _ _ _ _ D B Hi Hj) as (v & Ev & _). rewrite Ev. reflexivity.
  - pose proof (box_lo x r X0 Bx Fr Hr (proj1 P1)). lia.
  - apply Z.le_min_r.
  - pose proof (box_lo y r Y0 By Fr Hr (proj1 P2)). lia.
  - apply Z.le_min_r.
Qed.

Lemma dab_box_range : forall trig x y r h s a angle x0 y0 x1 y1,
  dab_ok trig x y r h s a angle -> dab_box x y r = Ok (x0, y0, x1, y1) ->
  0 <= x0 /\ 0 <= y0 /\ x1 <= 63 /\ y1 <= 63.
Proof.
  intros trig x y r h s a angle x0 y0 x1 y1 D B. unfold dab_box in B.
  repeat match goal with H : obind ?e _ = Ok _ |- _ => destruct e eqn:?; cbn [obind] in H; try discriminate end.
  injection B as <- <- <- <-. rewrite TILE_val. lia.
Qed.

Lemma render_small_ok : forall trig x y r h s a angle,
  dab_ok trig x y r h s a angle -> (b2r r <= 22)%R ->
  exists mask, render_dab_mask trig x y r h s a angle = Ok mask.
Proof.
  intros trig x y r h s a angle D Hr22. pose proof D as [Bx By (Fr & Hr) (Fh & Hh) _ _ _].
  destruct (dab_box_ok x y r Bx By Fr Hr) as (X0 & Y0 & X1 & Y1 & E & P1 & P2 & P3 & P4 & Q1 & Q2 & Q3 & Q4).
  pose proof (box_width x r X0 X1 Bx Fr (conj (proj1 Hr) Hr22) P1 P3) as W1.
  pose proof (box_width y r Y0 Y1 By Fr (conj (proj1 Hr) Hr22) P2 P4) as W2.
  eexists. apply (render_fit _ _ _ _ _ _ _ _ _ _ _ _ D E).
  set (V := box_vals _ _ _ _ _).
  pose proof (final_len_any V (Z.max X0 0) (Z.max Y0 0) (Z.min X1 63) (Z.min Y1 63)) as FL.
  assert (Z.max 0 (Z.min X1 63 - Z.max X0 0 + 1) <= 48) as A1 by lia.
  assert (Z.max 0 (Z.min Y1 63 - Z.max Y0 0 + 1) <= 48) as A2 by lia.
  specialize (FL ltac:(lia) ltac:(lia) ltac:(lia)).
  assert ((3 * Z.max 0 (Z.min X1 63 - Z.max X0 0 + 1) + 6) * Z.max 0 (Z.min Y1 63 - Z.max Y0 0 + 1) <= 150 * 48) by (apply Z.mul_le_mono_nonneg; lia).
  change MASK_CAP with 4224. lia.
Qed.

(** rows without gaps, in terms of positions *)
Lemma no_gap_intro : forall (V : Z -> Z -> Z) y n x0,
  (forall a b c, x0 <= a -> a < b -> b < c -> c < x0 + Z.of_nat n -> V a y <> 0 -> V c y <> 0 -> V b y <> 0) ->
  no_gap (map (fun x => V x y) (zrange x0 n)).
Proof.
  intros V y. induction n; intros x0 H.
  - exists O, [], O. split; auto.
  - assert (zrange x0 (S n) = x0 :: zrange (x0 + 1) n) as ->.
    { unfold zrange. simpl. f_equal; [lia|]. rewrite <- seq_shift, map_map. apply map_ext. intros. lia. }
    cbn [map]. destruct (IHn (x0 + 1)) as (p & nz & q & E & F).
    { intros a b c A1 A2 A3 A4. apply H; lia. }
    destruct (Z.eq_dec (V x0 y) 0) as [Z0|NZ].
    + rewrite E, Z0. exists (S p), nz, q. split; auto.
    + destruct nz as [|z nz].
      * exists O, [V x0 y], (p + q)%nat. split; [|auto]. simpl. f_equal. rewrite E. simpl. rewrite repeat_app. reflexivity.
      * destruct p as [|p].
        { exists O, (V x0 y :: z :: nz), q. split; [|auto]. simpl in *. f_equal. exact E. }
        exfalso.
        (* V at x0+1 is zero, V at x0+1+(S p) is nonzero *)
        assert (L : length (map (fun x => V x y) (zrange (x0 + 1) n)) = n) by (rewrite map_length, zrange_length; auto).
        assert (n > S p)%nat as Hn.
        { rewrite <- L, E, !app_length, repeat_length. simpl. lia. }
        assert (NTH : forall k, (k < n)%nat -> nth k (map (fun x => V x y) (zrange (x0 + 1) n)) 0 = V (x0 + 1 + Z.of_nat k) y).
        { intros k Hk. unfold zrange. rewrite map_map.
          rewrite (nth_indep _ 0 (V (x0 + 1 + Z.of_nat 0) y)) by (rewrite map_length, seq_length; auto).
          rewrite (map_nth (fun i => V (x0 + 1 + Z.of_nat i) y) (seq 0 n) O k). rewrite seq_nth by auto. reflexivity. }
        assert (V (x0 + 1) y = 0) as Z1.
        { replace (x0 + 1) with (x0 + 1 + Z.of_nat 0) by lia. rewrite <- NTH by lia. rewrite E. reflexivity. }
        assert (V (x0 + 1 + Z.of_nat (S p)) y <> 0) as NZ2.
        { rewrite <- NTH by lia. rewrite E. rewrite app_nth2 by (rewrite repeat_length; lia).
          rewrite repeat_length. replace (S p - S p)%nat with O by lia. simpl. inversion F; auto. }
        apply (H x0 (x0 + 1) (x0 + 1 + Z.of_nat (S p))); try lia; auto.
Qed.

Lemma render_no_gap_ok : forall trig x y r h s a angle x0 y0 x1 y1,
  dab_ok trig x y r h s a angle -> dab_box x y r = Ok (x0, y0, x1, y1) ->
  let V := box_vals (mask_value trig x y r (clampf h f0 f1) s a angle) x0 y0 x1 y1 in
  (forall i j k row, V i row <> 0 -> V k row <> 0 -> i < j < k -> V j row <> 0) ->
  exists mask, render_dab_mask trig x y r h s a angle = Ok mask.
Proof.
  intros trig x y r h s a angle x0 y0 x1 y1 D B V G.
  destruct (dab_box_range _ _ _ _ _ _ _ _ _ _ _ _ D B) as (R1 & R2 & R3 & R4).
  eexists. apply (render_fit _ _ _ _ _ _ _ _ _ _ _ _ D B).
  pose proof (final_len_rows V x0 y0 x1 y1 R1 R3 R2 R4) as F.
  fold V. assert (plen (final V x0 y0 x1 y1) <= 1 + 65 * 64).
  { apply F. intros row _. unfold row_vals. apply no_gap_intro.
    intros i j k _ ? ? _ A C. apply (G i j k row); auto. }
  change MASK_CAP with 4224. lia.
Qed.
