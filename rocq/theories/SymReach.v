(** How far the copies made by the symmetry can be from the dab: with a centre
    within 65536 of the origin the copies of a dab within 440001 stay within 2^20,
    and their angles are numbers.  Bit exact. *)
From Verif Require Import Base F32 F32Proofs Arith Rect Symmetry SymmetryProofs PassProofs EaselNum.
From Verif Require EaselDab.
From Coq Require Import Reals Lra.
From Flocq Require Import Core.Core IEEE754.BinarySingleNaN.
Local Open Scope Z_scope.

(** sin and cos of an angle, up to rounding *)
Definition turn (c s : f32) : Prop :=
  fin c /\ fin s /\ (-1 <= b2r c <= 1)%R /\ (-1 <= b2r s <= 1)%R /\ (Rabs (b2r c * b2r c + b2r s * b2r s - 1) <= / 65536)%R.

(** what is used of the C library and of the conversions of angles *)
Record turns_ok (G : trigops num32) : Prop := {
  tk_pair : forall a : f32, fin a -> turn (tcos G a) (tsin G a);
  tk_rad : forall a : f32, zf (-1000000) a 1000000 -> zf (-20000) (deg_to_rad G a) 20000;
  tk_quarter : forall a : f32, zf (-20000) a 20000 -> zf (-20002) (quarter_turn G a) 20002;
  tk_part : forall n, 2 <= n <= 4000000 -> zf 0 (turn_part G n) 4;
  tk_deg : forall n, 2 <= n <= 4000000 -> zf 0 (turn_part_deg G n) 180;
  tk_mirror : forall a b : f32, zf (-1000091) a 1000091 -> zf (-1000000) b 1000000 -> fin (mirror_deg G a b) }.

Lemma ab : forall x k, (- k <= x <= k)%R -> (Rabs x <= k)%R.
Proof. intros. apply Rabs_le. assumption. Qed.

(** *** One element of a product *)
Lemma pow_step : forall e, bpow radix2 (e + 1) = (2 * bpow radix2 e)%R.
Proof. intros e. rewrite bpow_plus. change (bpow radix2 1) with 2%R. lra. Qed.

Lemma dot_near : forall e (a b c d f g : f32), -100 <= e <= 60 -> fin a -> fin b -> fin c -> fin d -> fin f -> fin g ->
  (Rabs (b2r a * b2r b) <= bpow radix2 e)%R -> (Rabs (b2r c * b2r d) <= bpow radix2 e)%R -> (Rabs (b2r f * b2r g) <= bpow radix2 e)%R ->
  fin (dot3 (A := num32) a b c d f g) /\
  (Rabs (b2r (dot3 (A := num32) a b c d f g) - (b2r a * b2r b + b2r c * b2r d + b2r f * b2r g)) <= bpow radix2 (e - 21))%R.
Proof.
  intros e a b c d f g He Fa Fb Fc Fd Ff Fg H1 H2 H3. unfold dot3. change (@nadd num32) with fadd. change (@nmul num32) with fmul.
  assert (forall k : Z, (k <= 127)%Z -> (bpow radix2 k <= bpow radix2 127)%R) as Big by (intros; apply bpow_le; lia).
  destruct (fmul_spec a b Fa Fb) as (V1 & F1); [specialize (Big e ltac:(lia)); lra|]. destruct (fmul_spec c d Fc Fd) as (V2 & F2); [specialize (Big e ltac:(lia)); lra|]. destruct (fmul_spec f g Ff Fg) as (V3 & F3); [specialize (Big e ltac:(lia)); lra|].
  pose proof (rnd32_err _ e H1 ltac:(lia)) as E1. pose proof (rnd32_err _ e H2 ltac:(lia)) as E2. pose proof (rnd32_err _ e H3 ltac:(lia)) as E3. rewrite <- V1 in E1. rewrite <- V2 in E2. rewrite <- V3 in E3.
  apply Rabs_le_inv in H1, H2, H3, E1, E2, E3.
  set (u := bpow radix2 (e - 25)) in *.
  assert (bpow radix2 e = 33554432 * u)%R as Ve. { unfold u. replace e with (25 + (e - 25)) at 1 by lia. rewrite bpow_plus. reflexivity. }
  assert (0 < u)%R by apply bpow_gt_0.
  assert (bpow radix2 (e + 2) = 134217728 * u)%R as Ve2. { unfold u. replace (e + 2) with (27 + (e - 25)) by lia. rewrite bpow_plus. reflexivity. }
  assert (bpow radix2 (e + 2 - 25) = 4 * u)%R as Vu2. { unfold u. replace (e + 2 - 25) with (2 + (e - 25)) by lia. rewrite bpow_plus. reflexivity. }
  assert (bpow radix2 (e - 21) = 16 * u)%R as Vu4. { unfold u. replace (e - 21) with (4 + (e - 25)) by lia. rewrite bpow_plus. reflexivity. }
  assert (Rabs (b2r (fmul a b) + b2r (fmul c d)) <= bpow radix2 (e + 2))%R as B4 by (apply ab; lra).
  destruct (fadd_spec _ _ F1 F2) as (V4 & F4); [specialize (Big (e + 2) ltac:(lia)); lra|]. pose proof (rnd32_err _ _ B4 ltac:(lia)) as E4. rewrite <- V4, Vu2 in E4. apply Rabs_le_inv in E4.
  assert (Rabs (b2r (fadd (fmul a b) (fmul c d)) + b2r (fmul f g)) <= bpow radix2 (e + 2))%R as B5 by (apply ab; lra).
  destruct (fadd_spec _ _ F4 F3) as (V5 & F5); [specialize (Big (e + 2) ltac:(lia)); lra|]. pose proof (rnd32_err _ _ B5 ltac:(lia)) as E5. rewrite <- V5, Vu2 in E5. apply Rabs_le_inv in E5.
  split; [exact F5|]. rewrite Vu4. apply ab. lra.
Qed.

(** a row (0, 0, 1) of the second factor *)
Lemma dot_bottom : forall a b c d f g : f32, fin a -> fin b -> fin c -> fin d -> fin f -> fin g -> b2r b = 0%R -> b2r d = 0%R -> b2r g = 1%R -> (-1 <= b2r f <= 1)%R ->
  fin (dot3 (A := num32) a b c d f g) /\ b2r (dot3 (A := num32) a b c d f g) = b2r f.
Proof.
  intros a b c d f g Fa Fb Fc Fd Ff Fg H1 H2 H3 Hf. unfold dot3. change (@nadd num32) with fadd. change (@nmul num32) with fmul.
  destruct (zf_mul 0 0 a b Fa Fb) as ((F1 & K1) & _); [split; lia|rewrite H1; simpl; lra|].
  destruct (zf_mul 0 0 c d Fc Fd) as ((F2 & K2) & _); [split; lia|rewrite H2; simpl; lra|]. simpl in K1, K2.
  destruct (mul_one_r (-1) 1 f g) as (F3 & K3); [split; auto; simpl; lra|split; lia|auto|auto|].
  destruct (zf_add 0 0 _ _ F1 F2) as ((F4 & K4) & _); [split; lia|simpl; lra|]. simpl in K4.
  destruct (zf_add (-1) 1 _ _ F4 F3) as ((F5 & _) & V5); [split; lia|simpl; lra|]. split; [exact F5|].
  rewrite V5. replace (b2r (fadd (fmul a b) (fmul c d)) + b2r (fmul f g))%R with (b2r f) by lra. apply rnd32_id, rep32_b2r.
Qed.

(** *** Products with a rotation or a reflection *)
Definition col (S : R) (u v : f32) : Prop := fin u /\ fin v /\ (b2r u * b2r u + b2r v * b2r v <= S)%R.
Definition S_ (k : R) : R := (1 + k / 1000)%R.
(** the matrix is a rotation or reflection after a shift by the centre, up to the
    rounding of [k] products *)
Record moving (k : R) (m : mat num32) : Prop := {
  mv_0 : col (S_ k) (m00 m) (m10 m); mv_1 : col (S_ k) (m01 m) (m11 m); mv_2 : col (S_ k * 8589934592) (m02 m) (m12 m);
  mv_b : fin (m20 m : f32) /\ fin (m21 m : f32) /\ fin (m22 m : f32) /\ b2r (m20 m : f32) = 0%R /\ b2r (m21 m : f32) = 0%R /\ b2r (m22 m : f32) = 1%R }.

(** a rotation (sg = -1) or reflection (sg = 1) *)
Record orth (b : mat num32) : Prop := {
  or_fin : fin (m00 b : f32) /\ fin (m01 b : f32) /\ fin (m10 b : f32) /\ fin (m11 b : f32);
  or_val : exists P Q sg, (sg = 1 \/ sg = -1)%R /\ (P * P + Q * Q <= 10001 / 10000)%R /\
    (Rabs (b2r (m00 b : f32) - P) <= / 4194304 /\ Rabs (b2r (m01 b : f32) - Q) <= / 4194304 /\
     Rabs (b2r (m10 b : f32) - sg * Q) <= / 4194304 /\ Rabs (b2r (m11 b : f32) + sg * P) <= / 4194304)%R;
  or_right : fin (m02 b : f32) /\ fin (m12 b : f32) /\ b2r (m02 b : f32) = 0%R /\ b2r (m12 b : f32) = 0%R;
  or_b : fin (m20 b : f32) /\ fin (m21 b : f32) /\ fin (m22 b : f32) /\ b2r (m20 b : f32) = 0%R /\ b2r (m21 b : f32) = 0%R /\ b2r (m22 b : f32) = 1%R }.

Lemma sq_le : forall x M, (0 <= M)%R -> (x * x <= M * M)%R -> (- M <= x <= M)%R.
Proof. intros x M H K. split; nra. Qed.

Lemma col_abs : forall S M u v, col S u v -> (0 <= M)%R -> (S <= M * M)%R -> (- M <= b2r u <= M)%R /\ (- M <= b2r v <= M)%R.
Proof.
  intros S M u v (_ & _ & H) HM HS. pose proof (Rle_0_sqr (b2r u)) as A. pose proof (Rle_0_sqr (b2r v)) as B. unfold Rsqr in *.
  split; apply sq_le; lra.
Qed.

(** one column of the product *)
Lemma col_step : forall e (S S' M : R) (b00 b01 b10 b11 z0 z1 u v w : f32) P Q sg,
  col S u v -> -90 <= e <= 40 -> (0 <= M)%R -> (S <= M * M)%R -> (M <= bpow radix2 e)%R ->
  fin b00 -> fin b01 -> fin b10 -> fin b11 -> fin z0 -> fin z1 -> b2r z0 = 0%R -> b2r z1 = 0%R -> fin w ->
  (sg = 1 \/ sg = -1)%R -> (P * P + Q * Q <= 10001 / 10000)%R ->
  (Rabs (b2r b00 - P) <= / 4194304 /\ Rabs (b2r b01 - Q) <= / 4194304 /\ Rabs (b2r b10 - sg * Q) <= / 4194304 /\ Rabs (b2r b11 + sg * P) <= / 4194304)%R ->
  (10001 / 10000 * (M * M) + 8 * (bpow radix2 (e - 19) * M) + 2 * (bpow radix2 (e - 19) * bpow radix2 (e - 19)) <= S')%R ->
  col S' (dot3 (A := num32) u b00 v b01 w z0) (dot3 (A := num32) u b10 v b11 w z1).
Proof.
  intros e S S' M b00 b01 b10 b11 z0 z1 u v w P Q sg C He HM HS Hb F00 F01 F10 F11 Fz0 Fz1 Z0 Z1 Fw Hsg HPQ (D1 & D2 & D3 & D4) HS'.
  destruct (col_abs S M u v C HM HS) as (Au & Av). destruct C as (Fu & Fv & N).
  assert (-(101/100) <= P <= 101/100)%R as AP by (apply sq_le; [lra|pose proof (Rle_0_sqr Q); unfold Rsqr in *; lra]).
  assert (-(101/100) <= Q <= 101/100)%R as AQ by (apply sq_le; [lra|pose proof (Rle_0_sqr P); unfold Rsqr in *; lra]).
  set (t := bpow radix2 (e - 20)). assert (0 < t)%R by apply bpow_gt_0.
  assert (bpow radix2 e = 1048576 * t)%R as Ve. { unfold t. replace e with (20 + (e - 20)) at 1 by lia. rewrite bpow_plus. reflexivity. }
  assert (bpow radix2 (e - 19) = 2 * t)%R as Vt. { unfold t. replace (e - 19) with (1 + (e - 20)) by lia. rewrite bpow_plus. reflexivity. }
  (* one element *)
  assert (forall (p q z : f32) X Y, fin p -> fin q -> fin z -> b2r z = 0%R -> (Rabs (b2r p - X) <= / 4194304)%R -> (Rabs (b2r q - Y) <= / 4194304)%R -> (-(101/100) <= X <= 101/100)%R -> (-(101/100) <= Y <= 101/100)%R ->
    fin (dot3 (A := num32) u p v q w z) /\ (Rabs (b2r (dot3 (A := num32) u p v q w z) - (X * b2r u + Y * b2r v)) <= 2 * t)%R) as El.
  { intros p q z X Y Fp Fq Fz Vz Dp Dq AX AY. apply Rabs_le_inv in Dp, Dq.
    assert (forall (h : f32) (r : f32), (- M <= b2r h <= M)%R -> (-(102/100) <= b2r r <= 102/100)%R -> (Rabs (b2r h * b2r r) <= bpow radix2 (e + 1))%R) as Pr.
    { intros h r Hh Hr. rewrite Rabs_mult, pow_step. apply Rle_trans with (M * (102/100))%R; [apply Rmult_le_compat; try apply Rabs_pos; apply ab; lra|]. rewrite Ve in *. lra. }
    destruct (dot_near (e + 1) u p v q w z) as (F & H1); auto; [lia|apply Pr; auto; lra|apply Pr; auto; lra|rewrite Vz, Rmult_0_r, Rabs_R0; apply bpow_ge_0|].
    split; [exact F|]. replace (e + 1 - 21) with (e - 20) in H1 by lia. fold t in H1. rewrite Vz, Rmult_0_r, Rplus_0_r in H1. apply Rabs_le_inv in H1.
    assert (forall h dl, (- M <= h <= M)%R -> (- / 4194304 <= dl <= / 4194304)%R -> (- (t / 4) <= h * dl <= t / 4)%R) as Sm.
    { intros h dl Hh Hd. apply Rabs_le_inv. rewrite Rabs_mult. apply Rle_trans with (M * / 4194304)%R; [apply Rmult_le_compat; try apply Rabs_pos; apply ab; lra|]. lra. }
    pose proof (Sm (b2r u) (b2r p - X)%R Au Dp) as T1. pose proof (Sm (b2r v) (b2r q - Y)%R Av Dq) as T2.
    replace (b2r u * (b2r p - X))%R with (b2r u * b2r p - X * b2r u)%R in T1 by ring. replace (b2r v * (b2r q - Y))%R with (b2r v * b2r q - Y * b2r v)%R in T2 by ring.
    apply ab. lra. }
  destruct (El b00 b01 z0 P Q) as (F0 & E0); auto. destruct (El b10 b11 z1 (sg * Q)%R (- (sg * P))%R) as (F1 & E1); auto.
  { replace (b2r b11 - - (sg * P))%R with (b2r b11 + sg * P)%R by ring. exact D4. }
  { destruct Hsg; subst sg; lra. } { destruct Hsg; subst sg; lra. }
  split; [exact F0|]. split; [exact F1|]. clear El D1 D2 D3 D4.
  set (U := b2r (dot3 (A := num32) u b00 v b01 w z0)) in *. set (V := b2r (dot3 (A := num32) u b10 v b11 w z1)) in *. clearbody U V.
  set (A := (P * b2r u + Q * b2r v)%R) in *. set (B := (sg * Q * b2r u + - (sg * P) * b2r v)%R) in *.
  assert (A * A + B * B <= 10001 / 10000 * (M * M))%R as AB.
  { assert (A * A + B * B = (P * P + Q * Q) * (b2r u * b2r u + b2r v * b2r v))%R as -> by (unfold A, B; destruct Hsg; subst sg; ring).
    apply Rmult_le_compat; [pose proof (Rle_0_sqr P); pose proof (Rle_0_sqr Q); unfold Rsqr in *; lra|pose proof (Rle_0_sqr (b2r u)); pose proof (Rle_0_sqr (b2r v)); unfold Rsqr in *; lra|exact HPQ|lra]. }
  assert (- (2 * M) <= A <= 2 * M /\ - (2 * M) <= B <= 2 * M)%R as (HA & HB).
  { pose proof (Rle_0_sqr A). pose proof (Rle_0_sqr B). pose proof (Rle_0_sqr M). unfold Rsqr in *. split; apply sq_le; lra. }
  clearbody A B. apply Rabs_le_inv in E0, E1. rewrite Vt in HS'.
  assert (forall X Y, (- (2 * M) <= X <= 2 * M)%R -> (- (2 * t) <= Y - X <= 2 * t)%R -> (Y * Y <= X * X + 8 * (t * M) + 4 * (t * t))%R) as K.
  { intros X Y HX HY. set (dl := (Y - X)%R) in *. replace Y with (X + dl)%R by (unfold dl; ring). clearbody dl.
    assert (X * dl <= 2 * M * (2 * t))%R.
    { apply Rle_trans with (Rabs (X * dl))%R; [apply Rle_abs|]. rewrite Rabs_mult. apply Rmult_le_compat; try apply Rabs_pos; apply ab; lra. }
    assert (dl * dl <= 2 * t * (2 * t))%R.
    { apply Rle_trans with (Rabs (dl * dl))%R; [apply Rle_abs|]. rewrite Rabs_mult. apply Rmult_le_compat; try apply Rabs_pos; apply ab; lra. }
    lra. }
  pose proof (K A U HA E0). pose proof (K B V HB E1). lra.
Qed.

Lemma moving_mul : forall k (a b : mat num32), (0 <= k <= 21 / 10)%R -> moving k a -> orth b -> moving (k + 1) (matrix_multiply a b).
Proof.
  intros k a b Hk [A0 A1 A2 (B0 & B1 & B2 & V0 & V1 & V2)] [(F00 & F01 & F10 & F11) (P & Q & sg & Hsg & HPQ & D) (R0 & R1 & W0 & W1) (C0 & C1 & C2 & U0 & U1 & U2)].
  unfold S_ in *. constructor; cbn [matrix_multiply m00 m01 m02 m10 m11 m12 m20 m21 m22].
  - apply (col_step 1 (1 + k / 1000) _ (1 + k / 2000) (m00 b) (m01 b) (m10 b) (m11 b) (m02 b) (m12 b) (m00 a) (m10 a) (m20 a) P Q sg); auto; try lra; try lia; [nra|change (bpow radix2 1) with 2%R; lra|].
    change (bpow radix2 (1 - 19)) with (/ 262144)%R. unfold S_. nra.
  - apply (col_step 1 (1 + k / 1000) _ (1 + k / 2000) (m00 b) (m01 b) (m10 b) (m11 b) (m02 b) (m12 b) (m01 a) (m11 a) (m21 a) P Q sg); auto; try lra; try lia; [nra|change (bpow radix2 1) with 2%R; lra|].
    change (bpow radix2 (1 - 19)) with (/ 262144)%R. unfold S_. nra.
  - apply (col_step 17 ((1 + k / 1000) * 8589934592) _ ((1 + k / 2000) * 92682) (m00 b) (m01 b) (m10 b) (m11 b) (m02 b) (m12 b) (m02 a) (m12 a) (m22 a) P Q sg); auto; try lra; try lia; [nra|change (bpow radix2 17) with 131072%R; lra|].
    change (bpow radix2 (17 - 19)) with (/ 4)%R. unfold S_. nra.
  - destruct A0 as (Fa & Fb & _), A1 as (Fc & Fd & _), A2 as (Fe & Ff & _).
    destruct (dot_bottom (m00 a) (m20 b) (m10 a) (m21 b) (m20 a) (m22 b)) as (Q1 & Q2); auto; [rewrite V0; lra|].
    destruct (dot_bottom (m01 a) (m20 b) (m11 a) (m21 b) (m21 a) (m22 b)) as (Q3 & Q4); auto; [rewrite V1; lra|].
    destruct (dot_bottom (m02 a) (m20 b) (m12 a) (m21 b) (m22 a) (m22 b)) as (Q5 & Q6); auto; [rewrite V2; lra|].
    rewrite Q2, Q4, Q6. auto 9.
Qed.

(** *** The factors *)
Lemma neg_val : forall k (a : f32), zf (- k) a k -> 0 <= k <= 16777216 -> zf (- k) (nneg (A := num32) a) k /\ b2r (nneg (A := num32) a) = (- b2r a)%R.
Proof.
  intros k a (Fa & Ha) Hk. unfold nneg. change (@nsub num32) with fsub. change (@nofZ num32 0) with (f_of_Z 0). destruct (zf_Z 0) as ((F0 & _) & V0); [lia|].
  rewrite opp_IZR in Ha. destruct (zf_sub (- k) k (f_of_Z 0) a F0 Fa) as (Z & V); [split; lia|rewrite V0, opp_IZR; clear - Ha; change (IZR 0) with 0%R; lra|].
  split; [exact Z|]. rewrite V, V0. change (IZR 0) with 0%R. replace (0 - b2r a)%R with (- b2r a)%R by ring. rewrite rnd32_opp. rewrite rnd32_id by apply rep32_b2r. reflexivity.
Qed.

Lemma unit_vals : (fin (nofZ (a := num32) 0 : f32) /\ b2r (nofZ (a := num32) 0 : f32) = 0%R) /\ (fin (nofZ (a := num32) 1 : f32) /\ b2r (nofZ (a := num32) 1 : f32) = 1%R).
Proof. change (@nofZ num32) with f_of_Z. destruct (zf_Z 0) as ((F0 & _) & V0); [lia|]. destruct (zf_Z 1) as ((F1 & _) & V1); [lia|]. auto. Qed.

Lemma orth_rotate : forall c s : f32, turn c s ->
  orth (mkMat (A := num32) c s (nofZ 0) (nneg (A := num32) s) c (nofZ 0) (nofZ 0) (nofZ 0) (nofZ 1)).
Proof.
  intros c s (Fc & Fs & Hc & Hs & H). destruct unit_vals as ((F0 & V0) & (F1 & V1)). destruct (neg_val 1 s) as ((Fn & _) & Vn); [split; [exact Fs|exact Hs]|lia|].
  constructor; cbn [m00 m01 m02 m10 m11 m12 m20 m21 m22]; auto 9.
  exists (b2r c), (b2r s), (-1)%R. split; [right; reflexivity|]. apply Rabs_le_inv in H. split; [lra|].
  rewrite Vn. repeat split; apply ab; lra.
Qed.

Lemma orth_reflect : forall x y : f32, turn x y ->
  let xy2 := nmul (a := num32) (nmul (a := num32) (nofZ 2) x) y in
  orth (mkMat (A := num32) (nsub (a := num32) (nmul (a := num32) x x) (nmul (a := num32) y y)) xy2 (nofZ 0) xy2 (nsub (a := num32) (nmul (a := num32) y y) (nmul (a := num32) x x)) (nofZ 0) (nofZ 0) (nofZ 0) (nofZ 1)).
Proof.
  intros x y (Fx & Fy & Hx & Hy & H). cbv zeta. destruct unit_vals as ((F0 & V0) & (F1 & V1)). change (@nmul num32) with fmul. change (@nsub num32) with fsub.
  destruct (zf_Z 2) as ((F2 & _) & V2); [lia|]. change (@nofZ num32 2) with (f_of_Z 2).
  assert (forall u : f32, fin u -> (-1 <= b2r u <= 1)%R -> fin (fmul u u) /\ (0 <= b2r (fmul u u) <= 1)%R /\ (Rabs (b2r (fmul u u) - b2r u * b2r u) <= / 33554432)%R) as Sq.
  { intros u Fu Hu. assert (0 <= b2r u * b2r u <= 1)%R as B by nra. destruct (zf_mul 0 1 u u Fu Fu) as ((F & K) & V); [split; lia|simpl; lra|]. split; [exact F|]. split; [simpl in K; exact K|]. rewrite V.
    apply (rnd32_err _ 0); [apply ab; change (bpow radix2 0) with 1%R; lra|lia]. }
  destruct (Sq x Fx Hx) as (Gx & Kx & Ex). destruct (Sq y Fy Hy) as (Gy & Ky & Ey). apply Rabs_le_inv in Ex, Ey.
  assert (forall u v : f32, fin u -> fin v -> (0 <= b2r u <= 1)%R -> (0 <= b2r v <= 1)%R -> fin (fsub u v) /\ (Rabs (b2r (fsub u v) - (b2r u - b2r v)) <= / 33554432)%R) as Sb.
  { intros u v Fu Fv Hu Hv. destruct (zf_sub (-1) 1 u v Fu Fv) as ((F & _) & V); [split; lia|simpl; lra|]. split; [exact F|]. rewrite V. apply (rnd32_err _ 0); [apply ab; change (bpow radix2 0) with 1%R; lra|lia]. }
  destruct (Sb _ _ Gx Gy Kx Ky) as (Ga & Ea). destruct (Sb _ _ Gy Gx Ky Kx) as (Gb & Eb). apply Rabs_le_inv in Ea, Eb.
  destruct (zf_mul (-2) 2 (f_of_Z 2) x F2 Fx) as ((Gd & Kd) & Vd); [split; lia|rewrite V2; simpl; lra|]. simpl in Kd.
  assert (Rabs (b2r (fmul (f_of_Z 2) x) - 2 * b2r x) <= / 16777216)%R as Ed.
  { rewrite Vd, V2. apply (rnd32_err _ 1); [apply ab; change (bpow radix2 1) with 2%R; lra|lia]. }
  apply Rabs_le_inv in Ed.
  assert (-2 <= b2r (fmul (f_of_Z 2) x) * b2r y <= 2)%R as Bq by (apply Rabs_le_inv; rewrite Rabs_mult; replace 2%R with (2 * 1)%R by ring; apply Rmult_le_compat; try apply Rabs_pos; apply ab; lra).
  destruct (zf_mul (-2) 2 (fmul (f_of_Z 2) x) y Gd Fy) as ((Gq & _) & Vq); [split; lia|exact Bq|].
  assert (Rabs (b2r (fmul (fmul (f_of_Z 2) x) y) - 2 * b2r x * b2r y) <= / 8388608)%R as Eq.
  { rewrite Vq. pose proof (rnd32_err (b2r (fmul (f_of_Z 2) x) * b2r y) 1 (ab _ _ Bq) ltac:(lia)) as E1. change (bpow radix2 (1 - 25)) with (/ 16777216)%R in E1. apply Rabs_le_inv in E1.
    assert (- / 16777216 <= (b2r (fmul (f_of_Z 2) x) - 2 * b2r x) * b2r y <= / 16777216)%R by (apply Rabs_le_inv; rewrite Rabs_mult; replace (/ 16777216)%R with (/ 16777216 * 1)%R by ring; apply Rmult_le_compat; try apply Rabs_pos; apply ab; lra).
    apply ab. lra. }
  apply Rabs_le_inv in Eq, H.
  constructor; cbn [m00 m01 m02 m10 m11 m12 m20 m21 m22]; auto 9.
  exists (b2r x * b2r x - b2r y * b2r y)%R, (2 * b2r x * b2r y)%R, 1%R. split; [left; reflexivity|]. split.
  - replace ((b2r x * b2r x - b2r y * b2r y) * (b2r x * b2r x - b2r y * b2r y) + 2 * b2r x * b2r y * (2 * b2r x * b2r y))%R
      with ((b2r x * b2r x + b2r y * b2r y) * (b2r x * b2r x + b2r y * b2r y))%R by ring.
    set (q := (b2r x * b2r x + b2r y * b2r y)%R) in *. clearbody q. apply Rle_trans with ((1 + / 65536) * (1 + / 65536))%R; [apply Rmult_le_compat; lra|lra].
  - repeat split; apply ab; lra.
Qed.

(** the shift after the turn *)
Lemma translate_reach : forall k (m : mat num32) (x y : f32), (0 <= k <= 31 / 10)%R -> moving k m -> zf (-65536) x 65536 -> zf (-65536) y 65536 ->
  let t := translate m x y in
  (fin (m00 t : f32) /\ fin (m01 t : f32) /\ fin (m10 t : f32) /\ fin (m11 t : f32) /\
   -(1002/1000) <= b2r (m00 t : f32) <= 1002/1000 /\ -(1002/1000) <= b2r (m01 t : f32) <= 1002/1000 /\
   -(1002/1000) <= b2r (m10 t : f32) <= 1002/1000 /\ -(1002/1000) <= b2r (m11 t : f32) <= 1002/1000)%R /\
  zf (-158400) (m02 t) 158400 /\ zf (-158400) (m12 t) 158400.
Proof.
  intros k m x y Hk [A0 A1 A2 (B0 & B1 & B2 & V0 & V1 & V2)] (Fx & Hx) (Fy & Hy). destruct unit_vals as ((F0 & Z0) & (F1 & Z1)). unfold S_ in *.
  destruct (col_abs _ (1 + k / 2000) _ _ A0) as (a & b); [lra|nra|]. destruct (col_abs _ (1 + k / 2000) _ _ A1) as (c & d); [lra|nra|]. destruct (col_abs _ ((1 + k / 2000) * 92682) _ _ A2) as (e & f); [lra|nra|].
  destruct A0 as (Fa & Fb & _), A1 as (Fc & Fd & _), A2 as (Fe & Ff & _).
  assert (forall (u v w z : f32), fin u -> fin v -> fin w -> fin z -> b2r w = 0%R -> (- (1 + k / 2000) <= b2r u <= 1 + k / 2000)%R ->
    (fin (dot3 (A := num32) u (nofZ 1) v (nofZ 0) w z) /\ -(1002/1000) <= b2r (dot3 (A := num32) u (nofZ 1) v (nofZ 0) w z) <= 1002/1000)%R) as P.
  { intros u v w z Fu Fv Fw Fz Hw Hu. destruct (dot_near 1 u (nofZ (a := num32) 1) v (nofZ (a := num32) 0) w z) as (F & E); auto; [lia|rewrite Z1; change (bpow radix2 1) with 2%R; apply ab; lra|rewrite Z0, Rmult_0_r, Rabs_R0; apply bpow_ge_0|rewrite Hw, Rmult_0_l, Rabs_R0; apply bpow_ge_0|].
    split; [exact F|]. rewrite Z1, Z0, Hw in E. change (bpow radix2 (1 - 21)) with (/ 1048576)%R in E. apply Rabs_le_inv in E. lra. }
  assert (forall (u v w z : f32), fin u -> fin v -> fin w -> fin z -> b2r w = 0%R -> (- (1 + k / 2000) <= b2r u <= 1 + k / 2000)%R ->
    (fin (dot3 (A := num32) v (nofZ 0) u (nofZ 1) w z) /\ -(1002/1000) <= b2r (dot3 (A := num32) v (nofZ 0) u (nofZ 1) w z) <= 1002/1000)%R) as P'.
  { intros u v w z Fu Fv Fw Fz Hw Hu. destruct (dot_near 1 v (nofZ (a := num32) 0) u (nofZ (a := num32) 1) w z) as (F & E); auto; [lia|rewrite Z0, Rmult_0_r, Rabs_R0; apply bpow_ge_0|rewrite Z1; change (bpow radix2 1) with 2%R; apply ab; lra|rewrite Hw, Rmult_0_l, Rabs_R0; apply bpow_ge_0|].
    split; [exact F|]. rewrite Z1, Z0, Hw in E. change (bpow radix2 (1 - 21)) with (/ 1048576)%R in E. apply Rabs_le_inv in E. lra. }
  cbv zeta. unfold translate. cbn [matrix_multiply m00 m01 m02 m10 m11 m12 m20 m21 m22].
  split; [|split].
  - destruct (P (m00 m) (m10 m) (m20 m) x) as (? & ?); auto. destruct (P (m01 m) (m11 m) (m21 m) x) as (? & ?); auto. destruct (P' (m10 m) (m00 m) (m20 m) y) as (? & ?); auto. destruct (P' (m11 m) (m01 m) (m21 m) y) as (? & ?); auto.
    repeat (split; [assumption|]). assumption.
  - destruct (dot_near 17 (m02 m) (nofZ (a := num32) 1) (m12 m) (nofZ (a := num32) 0) (m22 m) x) as (F & E); auto; [lia|rewrite Z1; change (bpow radix2 17) with 131072%R; apply ab; lra|rewrite Z0, Rmult_0_r, Rabs_R0; apply bpow_ge_0|rewrite V2; change (bpow radix2 17) with 131072%R; apply ab; lra|].
    split; [exact F|]. rewrite Z1, Z0, V2 in E. change (bpow radix2 (17 - 21)) with (/ 16)%R in E. apply Rabs_le_inv in E. lra.
  - destruct (dot_near 17 (m02 m) (nofZ (a := num32) 0) (m12 m) (nofZ (a := num32) 1) (m22 m) y) as (F & E); auto; [lia|rewrite Z0, Rmult_0_r, Rabs_R0; apply bpow_ge_0|rewrite Z1; change (bpow radix2 17) with 131072%R; apply ab; lra|rewrite V2; change (bpow radix2 17) with 131072%R; apply ab; lra|].
    split; [exact F|]. rewrite Z1, Z0, V2 in E. change (bpow radix2 (17 - 21)) with (/ 16)%R in E. apply Rabs_le_inv in E. lra.
Qed.

(** *** The transforms *)
(** what is asked of a symmetry: centre, angle and number of lines *)
Record settled (s : symstate num32) : Prop := {
  se_x : zf (-65536) (s_cx s) 65536; se_y : zf (-65536) (s_cy s) 65536; se_angle : zf (-1000000) (s_angle s) 1000000;
  se_lines : s_lines s <= 4000000 }.

Lemma centre_moving : forall s, settled s -> moving (/ 10) (centre_origin s).
Proof.
  intros s [X Y _ _]. destruct unit_vals as ((F0 & Z0) & (F1 & Z1)).
  destruct (neg_val 65536 _ X) as ((Fx & Hx) & _); [lia|]. destruct (neg_val 65536 _ Y) as ((Fy & Hy) & _); [lia|]. clear X Y. change (IZR (- (65536))) with (-65536)%R in Hx, Hy.
  unfold centre_origin, translate, transform_unit. set (x := nneg (s_cx s)) in *. set (y := nneg (s_cy s)) in *. clearbody x y.
  assert (forall a b c d f g : f32, fin a -> fin b -> fin c -> fin d -> fin f -> fin g -> (Rabs (b2r a * b2r b) <= 1)%R -> (Rabs (b2r c * b2r d) <= 1)%R -> (Rabs (b2r f * b2r g) <= 1)%R ->
    fin (dot3 (A := num32) a b c d f g) /\ (Rabs (b2r (dot3 (A := num32) a b c d f g) - (b2r a * b2r b + b2r c * b2r d + b2r f * b2r g)) <= / 2097152)%R) as P by (intros; apply (dot_near 0); auto; lia).
  assert (forall a b c d f g : f32, fin a -> fin b -> fin c -> fin d -> fin f -> fin g -> (Rabs (b2r a * b2r b) <= 65536)%R -> (Rabs (b2r c * b2r d) <= 65536)%R -> (Rabs (b2r f * b2r g) <= 65536)%R ->
    fin (dot3 (A := num32) a b c d f g) /\ (Rabs (b2r (dot3 (A := num32) a b c d f g) - (b2r a * b2r b + b2r c * b2r d + b2r f * b2r g)) <= / 32)%R) as P' by (intros; apply (dot_near 16); auto; lia).
  set (O := nofZ (a := num32) 0 : f32) in *. set (I := nofZ (a := num32) 1 : f32) in *.
  assert (forall u v : f32, (fin u /\ fin v) -> (Rabs (b2r u - 1) <= / 2097152)%R -> (Rabs (b2r v) <= / 2097152)%R -> col (S_ (/ 10)) u v /\ col (S_ (/ 10)) v u) as C.
  { intros u v (Fu & Fv) Hu Hv. apply Rabs_le_inv in Hu, Hv. assert (b2r u * b2r u <= (1 + / 2097152) * (1 + / 2097152))%R by (apply Rmult_le_compat; lra).
    assert (b2r v * b2r v <= / 2097152 * / 2097152)%R by (apply Rle_trans with (Rabs (b2r v * b2r v)); [apply Rle_abs|]; rewrite Rabs_mult; apply Rmult_le_compat; try apply Rabs_pos; apply ab; lra).
    split; (split; [auto|split; [auto|unfold S_; lra]]). }
  constructor; cbn [matrix_multiply m00 m01 m02 m10 m11 m12 m20 m21 m22].
  - destruct (P I I O O O x) as (Fa & Ea); auto; try (rewrite ?Z0, ?Z1; apply ab; lra). destruct (P I O O I O y) as (Fb & Eb); auto; try (rewrite ?Z0, ?Z1; apply ab; lra).
    rewrite Z0, Z1 in Ea, Eb. refine (proj1 (C _ _ (conj Fa Fb) _ _)); [replace (b2r (dot3 (A := num32) I I O O O x) - 1)%R with (b2r (dot3 (A := num32) I I O O O x) - (1 * 1 + 0 * 0 + 0 * b2r x))%R by ring; exact Ea|].
    replace (b2r (dot3 (A := num32) I O O I O y)) with (b2r (dot3 (A := num32) I O O I O y) - (1 * 0 + 0 * 1 + 0 * b2r y))%R by ring. exact Eb.
  - destruct (P O I I O O x) as (Fa & Ea); auto; try (rewrite ?Z0, ?Z1; apply ab; lra). destruct (P O O I I O y) as (Fb & Eb); auto; try (rewrite ?Z0, ?Z1; apply ab; lra).
    rewrite Z0, Z1 in Ea, Eb. refine (proj2 (C _ _ (conj Fb Fa) _ _)); [replace (b2r (dot3 (A := num32) O O I I O y) - 1)%R with (b2r (dot3 (A := num32) O O I I O y) - (0 * 0 + 1 * 1 + 0 * b2r y))%R by ring; exact Eb|].
    replace (b2r (dot3 (A := num32) O I I O O x)) with (b2r (dot3 (A := num32) O I I O O x) - (0 * 1 + 1 * 0 + 0 * b2r x))%R by ring. exact Ea.
  - destruct (P' O I O O I x) as (Fa & Ea); auto; try (rewrite ?Z0, ?Z1; apply ab; lra). destruct (P' O O O I I y) as (Fb & Eb); auto; try (rewrite ?Z0, ?Z1; apply ab; lra).
    rewrite Z0, Z1 in Ea, Eb. apply Rabs_le_inv in Ea, Eb.
    set (u := dot3 (A := num32) O I O O I x) in *. set (v := dot3 (A := num32) O O O I I y) in *. clearbody u v. split; [auto|split; [auto|]].
    assert (forall w : f32, (-65537 <= b2r w <= 65537)%R -> (b2r w * b2r w <= 65537 * 65537)%R) as Sq by (intros w Hw; apply Rle_trans with (Rabs (b2r w * b2r w)); [apply Rle_abs|]; rewrite Rabs_mult; apply Rmult_le_compat; try apply Rabs_pos; apply ab; lra).
    pose proof (Sq u ltac:(lra)). pose proof (Sq v ltac:(lra)). unfold S_. lra.
  - destruct (dot_bottom I O O O O I) as (Q1 & Q2); auto; [rewrite Z0; lra|]. destruct (dot_bottom O O I O O I) as (Q3 & Q4); auto; [rewrite Z0; lra|]. destruct (dot_bottom O O O O I I) as (Q5 & Q6); auto; [rewrite Z1; lra|].
    rewrite Q2, Q4, Q6. auto 9.
Qed.

Section Reach.
  Context (G : trigops num32) (T : turns_ok G).

  Lemma reflect_moving : forall k m (a : f32), (0 <= k <= 21 / 10)%R -> moving k m -> fin a -> moving (k + 1) (reflect G m a).
  Proof. intros k m a Hk Hm Fa. unfold reflect. apply moving_mul; auto. apply orth_reflect. apply (tk_pair G T). exact Fa. Qed.
  Lemma rotate_moving : forall k m (a : f32), (0 <= k <= 21 / 10)%R -> moving k m -> fin a -> moving (k + 1) (rotate_cw G m a).
  Proof. intros k m a Hk Hm Fa. unfold rotate_cw. apply moving_mul; auto. apply orth_rotate. apply (tk_pair G T). exact Fa. Qed.
  Lemma moving_weak : forall k k' m, (k <= k')%R -> moving k m -> moving k' m.
  Proof.
    intros k k' m H [A0 A1 A2 B]. unfold S_ in *. constructor; auto; unfold S_.
    - destruct A0 as (? & ? & ?). repeat split; auto. lra. - destruct A1 as (? & ? & ?). repeat split; auto. lra. - destruct A2 as (? & ? & ?). repeat split; auto. lra.
  Qed.

  (** the angle of line [i] *)
  Lemma line_angle : forall n i, 2 <= n <= 4000000 -> -4000000 <= i <= 4000000 -> zf (-16000000) (nmul (a := num32) (turn_part G n) (nofZ i)) 16000000 /\ zf (-16000000) (nmul (a := num32) (nofZ i) (turn_part G n)) 16000000.
  Proof.
    intros n i Hn Hi. destruct (tk_part G T n) as (Fp & Hp); [lia|].
    change (@nmul num32) with fmul. change (@nofZ num32) with f_of_Z. destruct (zf_Z i) as ((Fi & _) & Vi); [lia|].
    assert (-4000000 <= IZR i <= 4000000)%R by (split; apply IZR_le; lia).
    assert (-16000000 <= b2r (turn_part G n) * b2r (f_of_Z i) <= 16000000)%R as B.
    { rewrite Vi. apply Rabs_le_inv. rewrite Rabs_mult. apply Rle_trans with (4 * 4000000)%R; [apply Rmult_le_compat; try apply Rabs_pos; apply ab; lra|lra]. }
    split; [apply (zf_mul (-16000000) 16000000 _ _ Fp Fi); [split; lia|exact B]|apply (zf_mul (-16000000) 16000000 _ _ Fi Fp); [split; lia|rewrite Rmult_comm; exact B]].
  Qed.

  Lemma base_moving : forall s i, settled s -> sane s -> 0 <= i < count s -> moving (31 / 10) (base G s i).
  Proof.
    intros s i St (_ & Hl) Hi. pose proof (centre_moving s St) as M. destruct St as [X Y An Ln].
    pose proof (tk_rad G T _ An) as R. pose proof (tk_quarter G T _ R) as Q. destruct (neg_val 20000 _ R) as ((FR & _) & _); [lia|]. destruct (neg_val 20002 _ Q) as ((FQ & _) & _); [lia|].
    unfold base, count in *. destruct (s_type s); try lia.
    - apply (moving_weak (/ 10 + 1)); [lra|]. apply reflect_moving; auto. lra.
    - apply (moving_weak (/ 10 + 1)); [lra|]. apply reflect_moving; auto. lra.
    - assert (moving (/ 10 + 1) (reflect G (centre_origin s) (nneg (deg_to_rad G (s_angle s))))) as A by (apply reflect_moving; auto; lra).
      assert (moving (/ 10 + 1 + 1) (reflect G (reflect G (centre_origin s) (nneg (deg_to_rad G (s_angle s)))) (nneg (quarter_turn G (deg_to_rad G (s_angle s)))))) as B by (apply reflect_moving; auto; lra).
      destruct (i =? 0); [apply (moving_weak (/ 10 + 1)); [lra|exact A]|]. destruct (i =? 1); [apply (moving_weak (/ 10 + 1 + 1)); [lra|exact B]|].
      apply (moving_weak (/ 10 + 1 + 1 + 1)); [lra|]. apply reflect_moving; auto. lra.
    - apply (moving_weak (/ 10 + 1)); [lra|]. apply rotate_moving; auto; [lra|]. apply line_angle; lia.
    - destruct (Z.ltb_spec i (s_lines s - 1)).
      + apply (moving_weak (/ 10 + 1)); [lra|]. apply rotate_moving; auto; [lra|]. apply line_angle; lia.
      + set (j := i - (s_lines s - 1)). apply (moving_weak (/ 10 + 1 + 1)); [lra|]. apply reflect_moving; [lra| |].
        * apply rotate_moving; auto; [lra|]. apply line_angle; lia.
        * destruct (line_angle (s_lines s) (- j)) as (_ & (Fj & Hj)); [lia|lia|]. destruct R as (Fr & Hr). apply (zf_sub (-16020000) 16020000 _ _ Fj Fr); [split; lia|lra].
  Qed.

  (** the place of one copy *)
  Lemma copy_reach : forall s i (x y : f32), settled s -> sane s -> 0 <= i < count s ->
    zf (-440001) x 440001 -> zf (-440001) y 440001 ->
    zf (-1040164) (fst (transform_point (expected G s i) x y)) 1040164 /\ zf (-1040164) (snd (transform_point (expected G s i) x y)) 1040164.
  Proof.
    intros s i x y St Hl Hi (Fx & Hx) (Fy & Hy). pose proof (base_moving s i St Hl Hi) as M. destruct (translate_reach (31 / 10) _ (s_cx s) (s_cy s) ltac:(lra) M (se_x s St) (se_y s St)) as ((F00 & F01 & F10 & F11 & H00 & H01 & H10 & H11) & T02 & T12).
    unfold expected. set (t := translate (base G s i) (s_cx s) (s_cy s)) in *. clearbody t. unfold transform_point. cbn [fst snd]. change (@nadd num32) with fadd. change (@nmul num32) with fmul.
    assert (forall a b c : f32, fin a -> fin b -> (-(1002/1000) <= b2r a <= 1002/1000)%R -> (-(1002/1000) <= b2r b <= 1002/1000)%R -> zf (-158400) c 158400 -> zf (-1040164) (fadd (fadd (fmul a x) (fmul b y)) c) 1040164) as K.
    { intros a b c Fa Fb Ha Hb (Fc & Hc).
      assert (forall u v : f32, (-(1002/1000) <= b2r u <= 1002/1000)%R -> (-440001 <= b2r v <= 440001)%R -> (-440882 <= b2r u * b2r v <= 440882)%R) as Pr.
      { intros u v Hu Hv. apply Rabs_le_inv. rewrite Rabs_mult. apply Rle_trans with (1002/1000 * 440001)%R; [apply Rmult_le_compat; try apply Rabs_pos; apply ab; lra|lra]. }
      destruct (zf_mul (-440882) 440882 a x Fa Fx) as ((F1 & H1) & _); [split; lia|apply (Pr a x); auto|].
      destruct (zf_mul (-440882) 440882 b y Fb Fy) as ((F2 & H2) & _); [split; lia|apply (Pr b y); auto|].
      destruct (zf_add (-881764) 881764 _ _ F1 F2) as ((F3 & H3) & _); [split; lia|lra|].
      destruct (zf_add (-1040164) 1040164 _ _ F3 Fc) as (Z & _); [split; lia|lra|]. exact Z. }
    split; apply K; auto.
  Qed.

  (** the angles of the copies *)
  Lemma turned_fin : forall (a : f32) n i, zf (-3000000) a 3000000 -> 2 <= n <= 4000000 -> 0 <= i <= 4000000 -> fin (nsub (a := num32) a (nmul (a := num32) (nofZ i) (turn_part_deg G n)) : f32).
  Proof.
    intros a n i Z Hn Hi.
    destruct (tk_deg G T n) as (Fp & Hp); [lia|]. change (@nmul num32) with fmul. change (@nofZ num32) with f_of_Z. change (@nsub num32) with fsub. destruct (zf_Z i) as ((Fi & _) & Vi); [lia|].
    assert (0 <= IZR i <= 4000000)%R as Bi by (split; apply IZR_le; lia).
    assert (Rabs (b2r (f_of_Z i) * b2r (turn_part_deg G n)) <= bpow radix2 30)%R as B1.
    { rewrite Vi, Rabs_mult. change (bpow radix2 30) with 1073741824%R. apply Rle_trans with (4000000 * 180)%R; [apply Rmult_le_compat; try apply Rabs_pos; apply ab; lra|lra]. }
    destruct (fmul_spec _ _ Fi Fp) as (V1 & F1); [eapply Rle_trans; [exact B1|apply bpow_le; lia]|].
    pose proof (rnd32_err _ 30 B1 ltac:(lia)) as E1. rewrite <- V1 in E1. change (bpow radix2 (30 - 25)) with 32%R in E1. change (bpow radix2 30) with 1073741824%R in B1. apply Rabs_le_inv in E1, B1. destruct Z as (Fz & Hz).
    destruct (fsub_spec _ _ Fz F1) as (_ & F2); [|exact F2]. apply Rle_trans with (bpow radix2 31); [|apply bpow_le; lia]. change (bpow radix2 31) with 2147483648%R. apply ab. lra.
  Qed.

  Lemma copy_angles : forall s (angle : f32), settled s -> sane s -> zf (-1000000) angle 1000000 ->
    Forall (fun ka => 0 <= fst ka < count s /\ fin (snd ka : f32)) (order G s angle).
  Proof.
    intros s angle St (_ & Hl) Z. pose proof St as [X Y An Ln]. unfold order, count.
    assert (zf (-1000091) (s_angle s) 1000091) as A by (apply (zf_weak _ _ _ _ _ An); lia).
    assert (zf (-3000000) angle 3000000) as Za by (apply (zf_weak _ _ _ _ _ Z); lia).
    destruct (s_type s) eqn:Te.
    - repeat constructor; cbn [fst snd]; try lia. apply (tk_mirror G T); auto. change (@nadd num32) with fadd. change (@nofZ num32) with f_of_Z. destruct (zf_Z 90) as ((F & _) & V); [lia|].
      destruct An as (FA & HA). destruct (zf_add (-1000091) 1000091 (f_of_Z 90) (s_angle s) F FA) as (B & _); [split; lia|rewrite V; lra|exact B].
    - repeat constructor; cbn [fst snd]; try lia. apply (tk_mirror G T); auto.
    - repeat constructor; cbn [fst snd]; try lia; [apply (tk_mirror G T); auto|apply Z|apply (tk_mirror G T); auto].
    - unfold rotations_of. apply Forall_forall. intros ka H. apply in_map_iff in H. destruct H as (i & <- & Hi). apply in_zrange in Hi. cbn [fst snd].
      split; [lia|]. apply turned_fin; [exact Za|lia|lia].
    - unfold rotations_of, mirrors_of. apply Forall_forall. intros ka H. apply in_app_or in H. destruct H as [H|H]; apply in_map_iff in H; destruct H as (i & <- & Hi); apply in_zrange in Hi; cbn [fst snd].
      + split; [lia|]. apply turned_fin; [|lia|lia]. change (@nmul num32) with fmul. change (@nofZ num32) with f_of_Z. change (@nsub num32) with fsub.
        destruct (zf_Z (-2)) as ((F2 & _) & V2); [lia|]. destruct An as (FA & HA), Z as (Fz & Hz). destruct (zf_mul (-2000000) 2000000 (f_of_Z (-2)) (s_angle s) F2 FA) as ((F3 & H3) & _); [split; lia|rewrite V2; lra|].
        apply (zf_sub (-3000000) 3000000 _ _ F3 Fz); [split; lia|lra].
      + split; [lia|]. apply turned_fin; [exact Za|lia|lia].
    - constructor.
  Qed.
End Reach.

(** *** The conversions of angles satisfy this with any sin and cos *)
Lemma degree_val : fin (ddiv M_PI64 (d_of_Z 180)) /\ (0 <= b2r (ddiv M_PI64 (d_of_Z 180)) <= / 50)%R.
Proof.
  assert (B2SF (ddiv M_PI64 (d_of_Z 180)) = SpecFloat.S754_finite false 5030569068109113 (-58)) as E by (vm_compute; reflexivity).
  destruct (ddiv M_PI64 (d_of_Z 180)) as [| | |s m e H]; try discriminate E. injection E as -> -> ->.
  split; [reflexivity|]. unfold b2r, B2R, F2R. cbn [Fnum Fexp cond_Zopp]. change (bpow radix2 (-58)) with (/ 288230376151711744)%R. lra.
Qed.
Lemma pi_val : zd 3 M_PI64 4.
Proof. apply EaselDab.dconst; [lia|lia|vm_compute; reflexivity]. Qed.
Lemma half_pi_val : zd 1 (ddiv M_PI64 (d_of_Z 2)) 2.
Proof. apply EaselDab.dconst; [lia|lia|vm_compute; reflexivity]. Qed.

Lemma trig32_turns : forall cos32 sin32 : f32 -> f32, (forall a : f32, fin a -> turn (cos32 a) (sin32 a)) -> turns_ok (trig32 cos32 sin32).
Proof.
  intros cos32 sin32 H. constructor; cbn [trig32 tcos tsin deg_to_rad quarter_turn turn_part turn_part_deg mirror_deg].
  - exact H.
  - intros a Za. destruct (zd_wid _ _ _ Za) as ((Fa & Ha) & _). destruct degree_val as (Fd & Hd). apply zf_nar; [|split; lia].
    apply (zd_mul (-20000) 20000 _ _ Fa Fd); [split; lia|]. apply Rabs_le_inv. rewrite Rabs_mult. apply Rle_trans with (1000000 * / 50)%R; [apply Rmult_le_compat; try apply Rabs_pos; apply ab; lra|lra].
  - intros a Za. destruct (zd_wid _ _ _ Za) as ((Fa & Ha) & _). destruct half_pi_val as (Fd & Hd). apply zf_nar; [|split; lia].
    apply (zd_add (-20002) 20002 _ _ Fa Fd); [split; lia|lra].
  - intros n Hn. destruct pi_val as (Fp & Hp). destruct (zd_Z 2) as ((F2 & _) & V2); [lia|]. destruct (zd_Z n) as ((Fn & _) & Vn); [lia|].
    destruct (zd_mul 0 8 _ _ F2 Fp) as ((F3 & H3) & _); [split; lia|rewrite V2; lra|]. assert (2 <= IZR n)%R by (apply IZR_le; lia). apply zf_nar; [|split; lia].
    apply (zd_div 0 4 _ _ F3 Fn); [rewrite Vn; lra|split; lia|]. rewrite Vn. split; [apply Rmult_le_pos; [lra|apply Rlt_le, Rinv_0_lt_compat; lra]|].
    apply Rmult_le_reg_r with (IZR n); [lra|]. unfold Rdiv. rewrite Rmult_assoc, Rinv_l by lra. lra.
  - intros n Hn. destruct (zd_Z 360) as ((F3 & _) & V3); [lia|]. destruct (zd_Z n) as ((Fn & _) & Vn); [lia|].
    assert (2 <= IZR n)%R by (apply IZR_le; lia). apply zf_nar; [|split; lia].
    apply (zd_div 0 180 _ _ F3 Fn); [rewrite Vn; lra|split; lia|]. rewrite Vn, V3. split; [apply Rmult_le_pos; [lra|apply Rlt_le, Rinv_0_lt_compat; lra]|].
    apply Rmult_le_reg_r with (IZR n); [lra|]. unfold Rdiv. rewrite Rmult_assoc, Rinv_l by lra. lra.
  - intros a b Za Zb. destruct (zd_wid _ _ _ Za) as ((Fa & Ha) & _). destruct (zd_wid _ _ _ Zb) as ((Fb & Hb) & _). destruct (zd_Z (-2)) as ((F2 & _) & V2); [lia|].
    destruct (zd_mul (-2000182) 2000182 _ _ F2 Fa) as ((F3 & H3) & _); [split; lia|rewrite V2; lra|].
    apply (zf_nar (-3000182) 3000182); [|split; lia]. apply (zd_sub (-3000182) 3000182 _ _ F3 Fb); [split; lia|lra].
Qed.
