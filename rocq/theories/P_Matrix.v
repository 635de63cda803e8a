(** Property C44: transforms compose (exact real arithmetic). *)
From Verif Require Import Base F32 Arith Rect Symmetry.
From Coq Require Import Reals Lra.
Local Open Scope R_scope.

(** A transform acts on the plane as an affine map. *)
Definition act (m : mat numR) (p : R * R) : R * R := transform_point m (fst p) (snd p).
(** third row 0 0 1: all the transforms the library makes *)
Definition affine (m : mat numR) : Prop := m20 m = 0 /\ m21 m = 0 /\ m22 m = 1.

Ltac calc := cbv beta iota zeta delta [act transform_point matrix_multiply dot3 transform_unit rotate_cw rotate_ccw reflect translate
  nneg m00 m01 m02 m10 m11 m12 m20 m21 m22 fst snd tcos tsin trigR numR car nadd nsub nmul nofZ] in *.

Lemma mat_ext : forall m n : mat numR, m00 m = m00 n -> m01 m = m01 n -> m02 m = m02 n -> m10 m = m10 n -> m11 m = m11 n ->
  m12 m = m12 n -> m20 m = m20 n -> m21 m = m21 n -> m22 m = m22 n -> m = n.
Proof. intros [a b c d e f g h i] [a' b' c' d' e' f' g' h' i']; cbn [m00 m01 m02 m10 m11 m12 m20 m21 m22]; intros; subst; reflexivity. Qed.

Theorem C44_composition_is_sequence : forall m n p, affine m -> affine n ->
  affine (matrix_multiply m n) /\ act (matrix_multiply m n) p = act n (act m p).
Proof.
  intros [a b c d e f g h i] [a' b' c' d' e' f' g' h' i'] [x y] H1 H2. unfold affine in *. unfold act. calc.
  destruct H1 as (-> & -> & ->), H2 as (-> & -> & ->). repeat split; try ring. f_equal; ring.
Qed.
Theorem C44_associative : forall m n k : mat numR,
  matrix_multiply (matrix_multiply m n) k = matrix_multiply m (matrix_multiply n k).
Proof. intros [a b c d e f g h i] [a' b' c' d' e' f' g' h' i'] [a2 b2 c2 d2 e2 f2 g2 h2 i2]. apply mat_ext; calc; ring. Qed.
Theorem C44_unit : forall m : mat numR,
  matrix_multiply m transform_unit = m /\ matrix_multiply transform_unit m = m /\
  forall p, act transform_unit p = p.
Proof.
  intros m. split; [|split].
  - destruct m as [a b c d e f g h i]. apply mat_ext; calc; ring.
  - destruct m as [a b c d e f g h i]. apply mat_ext; calc; ring.
  - intros [x y]. unfold act. calc. f_equal; ring.
Qed.

Lemma sin2cos2 : forall a, sin a * sin a + cos a * cos a = 1.
Proof. intros. pose proof (sin2_cos2 a). unfold Rsqr in *. lra. Qed.

Theorem C44_rotations_cancel : forall m a, rotate_ccw trigR (rotate_cw trigR m a) a = m /\ rotate_cw trigR (rotate_ccw trigR m a) a = m.
Proof.
  intros m a. unfold rotate_cw, rotate_ccw. rewrite !C44_associative.
  assert (forall k, k = transform_unit -> matrix_multiply m k = m) as U by (intros k ->; apply C44_unit).
  pose proof (sin2cos2 a) as S.
  split; apply U; apply mat_ext; calc; try ring; rewrite <- S; ring.
Qed.
Theorem C44_reflecting_twice : forall m a, reflect trigR (reflect trigR m a) a = m.
Proof.
  intros m a. unfold reflect. rewrite C44_associative.
  assert (forall k, k = transform_unit -> matrix_multiply m k = m) as U by (intros k ->; apply C44_unit).
  apply U. assert ((sin a * sin a + cos a * cos a) * (sin a * sin a + cos a * cos a) = 1) as S by (rewrite sin2cos2; ring).
  apply mat_ext; calc; try ring; rewrite <- S; ring.
Qed.

(** All transforms built from the unit are affine; what each does to a point. *)
Theorem C44_meaning : forall m p a x y, affine m ->
  (affine (translate m x y) /\ act (translate m x y) p = (fst (act m p) + x, snd (act m p) + y)) /\
  (affine (rotate_ccw trigR m a) /\
   act (rotate_ccw trigR m a) p = (cos a * fst (act m p) - sin a * snd (act m p), sin a * fst (act m p) + cos a * snd (act m p))) /\
  (affine (reflect trigR m a) /\
   act (reflect trigR m a) p = (cos (2 * a) * fst (act m p) + sin (2 * a) * snd (act m p), sin (2 * a) * fst (act m p) - cos (2 * a) * snd (act m p))).
Proof.
  intros [a0 b0 c0 d0 e0 f0 g0 h0 i0] [u v] a x y H. unfold affine in *. calc. destruct H as (-> & -> & ->).
  rewrite cos_2a, sin_2a. repeat match goal with |- _ /\ _ => split end; try ring; f_equal; ring.
Qed.

Example C44_case : act (translate (rotate_ccw trigR transform_unit (PI / 2)) 5 0) (2, 3) = (2, 2).
Proof.
  destruct (C44_meaning (rotate_ccw trigR transform_unit (PI / 2)) (2, 3) 0 5 0) as ((_ & ->) & _).
  { unfold affine. calc. lra. }
  destruct (C44_meaning transform_unit (2, 3) (PI / 2) 0 0) as (_ & (_ & ->) & _); [unfold affine; calc; lra|].
  rewrite (proj2 (proj2 (C44_unit transform_unit))). cbn [fst snd]. rewrite cos_PI2, sin_PI2. f_equal; lra.
Qed.

Print Assumptions C44_composition_is_sequence.
Print Assumptions C44_meaning.
