(** Properties C15 and C16: symmetric painting, in exact real arithmetic. *)
From Verif Require Import Base F32 Arith Mask Rect Symmetry SymmetryProofs PassProofs P_Matrix.
From Coq Require Import Reals Lra ZifyBool.
From Flocq Require Import Core.Raux.
Local Open Scope Z_scope.

(** ** Vocabulary *)
Notation point := (R * R)%type.
Section Geometry.
  Local Open Scope R_scope.
  Definition radians (d : R) : R := d * (PI / 180).
  (** mirror image across the line through [c] with direction angle [phi] *)
  Definition mirror (c : point) (phi : R) (p : point) : point :=
    let vx := fst p - fst c in let vy := snd p - snd c in
    let k := vx * cos phi + vy * sin phi in          (* component along the line *)
    (fst c + 2 * k * cos phi - vx, snd c + 2 * k * sin phi - vy).
  (** rotation about [c] *)
  Definition rotation (c : point) (phi : R) (p : point) : point :=
    let vx := fst p - fst c in let vy := snd p - snd c in
    (fst c + (cos phi * vx - sin phi * vy), snd c + (sin phi * vx + cos phi * vy)).
  Definition half_turn (c p : point) : point := (2 * fst c - fst p, 2 * snd c - snd p).

  (** squared elliptical distance of [p] from the centre of a dab, in units of
      the radius: the dab is a disk stretched along the direction [angle] *)
  Definition shape (c : point) (angle aspect radius : R) (p : point) : R :=
    let a := radians angle in
    let vx := fst p - fst c in let vy := snd p - snd c in
    let along := vx * cos a + vy * sin a in
    let across := vy * cos a - vx * sin a in
    ((aspect * across) * (aspect * across) + along * along) / (radius * radius).

  Definition dist2 (p q : point) : R := (fst p - fst q) * (fst p - fst q) + (snd p - snd q) * (snd p - snd q).

  (** [shape] is what the mask is computed from: the same formula as
      [calculate_rr] (mypaint-tiled-surface.c 236-248), which is this generic
      function read in float. *)
  Definition rr_gen (A : arith) (half xp yp x y aspect sn cs inv : A) : A :=
    let yy := nsub (nadd yp half) y in
    let xx := nsub (nadd xp half) x in
    let yyr := nmul (nsub (nmul yy cs) (nmul xx sn)) aspect in
    let xxr := nadd (nmul yy sn) (nmul xx cs) in
    nmul (nadd (nmul yyr yyr) (nmul xxr xxr)) inv.
  Lemma rr_gen_float : forall xp yp x y a sn cs inv,
    calculate_rr xp yp x y a sn cs inv = rr_gen num32 fhalf (f_of_Z xp) (f_of_Z yp) x y a sn cs inv.
  Proof. reflexivity. Qed.
  Lemma rr_gen_shape : forall (xp yp : Z) x y a angle r, r <> 0 ->
    rr_gen numR (/ 2) (IZR xp) (IZR yp) x y a (sin (radians angle)) (cos (radians angle)) (1 / (r * r)) =
    shape (x, y) angle a r (IZR xp + / 2, IZR yp + / 2).
  Proof. intros. unfold shape. cbv beta iota zeta delta [rr_gen nadd nsub nmul numR car fst snd]. field. auto. Qed.
End Geometry.

Definition centre (s : symstate numR) : point := (s_cx s, s_cy s).

(** The symmetries the user asked for (besides the dab itself).  The y axis of a
    canvas points down, so a counter-clockwise angle is a negative direction
    angle. *)
Definition line_angle (s : symstate numR) : R := radians (- s_angle s)%R.
Definition rotations (s : symstate numR) : list (point -> point) :=
  map (fun i => rotation (centre s) (- (2 * PI * IZR i / IZR (s_lines s)))%R) (zrange 1 (Z.to_nat (s_lines s - 1))).
Definition mirrors (s : symstate numR) : list (point -> point) :=
  map (fun i => mirror (centre s) (line_angle s - PI * IZR i / IZR (s_lines s))%R) (zrange 0 (Z.to_nat (s_lines s))).
Definition symmetries (s : symstate numR) : list (point -> point) :=
  match s_type s with
  | Horizontal => [mirror (centre s) (line_angle s)]
  | Vertical => [mirror (centre s) (line_angle s - PI / 2)%R]
  | VertHorz => [mirror (centre s) (line_angle s); half_turn (centre s); mirror (centre s) (line_angle s - PI / 2)%R]
  | Rotational => rotations s
  | Snowflake => mirrors s ++ rotations s
  | OtherType _ => []
  end.

(** [e] is the image under [g] of a dab at [p] with angle [angle]: it is centred
    at the image of the centre, and its footprint is the image of the footprint,
    whatever the aspect ratio and the radius. *)
Definition image_dab (g : point -> point) (p : point) (angle : R) (e : extra (A := numR)) : Prop :=
  (e_x e, e_y e) = g p /\
  forall aspect radius q, shape (e_x e, e_y e) (e_angle e) aspect radius (g q) = shape p angle aspect radius q.

(** ** The named maps are rigid and fix the centre *)
Definition rigid (c : point) (g : point -> point) : Prop :=
  g c = c /\ forall p q, dist2 (g p) (g q) = dist2 p q.

Section Rigid.
  Local Open Scope R_scope.
  Lemma mirror_eq : forall c phi p, mirror c phi p =
    (fst c + (cos (2 * phi) * (fst p - fst c) + sin (2 * phi) * (snd p - snd c)),
     snd c + (sin (2 * phi) * (fst p - fst c) - cos (2 * phi) * (snd p - snd c))).
  Proof.
    intros [cx cy] phi [px py]. unfold mirror. cbn [fst snd]. rewrite cos_2a, sin_2a.
    pose proof (sin2cos2 phi) as S. set (C := cos phi) in *. set (T := sin phi) in *.
    f_equal.
    - replace (px - cx) with ((T * T + C * C) * (px - cx)) at 2 by (rewrite S; ring). ring.
    - replace (py - cy) with ((T * T + C * C) * (py - cy)) at 2 by (rewrite S; ring). ring.
  Qed.
  Lemma mirror_rigid : forall c phi, rigid c (mirror c phi).
  Proof.
    intros [cx cy] phi. split.
    - unfold mirror. cbn [fst snd]. f_equal; ring.
    - intros [px py] [qx qy]. rewrite !mirror_eq. unfold dist2. cbn [fst snd]. pose proof (sin2cos2 (2 * phi)) as S.
      set (C := cos (2 * phi)) in *. set (T := sin (2 * phi)) in *.
      transitivity ((T * T + C * C) * ((px - qx) * (px - qx) + (py - qy) * (py - qy))); [ring|rewrite S; ring].
  Qed.
  Lemma rotation_rigid : forall c phi, rigid c (rotation c phi).
  Proof.
    intros [cx cy] phi. split.
    - unfold rotation. cbn [fst snd]. f_equal; ring.
    - intros [px py] [qx qy]. unfold rotation, dist2. cbn [fst snd]. pose proof (sin2cos2 phi) as S.
      set (C := cos phi) in *. set (T := sin phi) in *.
      transitivity ((T * T + C * C) * ((px - qx) * (px - qx) + (py - qy) * (py - qy))); [ring|rewrite S; ring].
  Qed.
  Lemma half_turn_rigid : forall c, rigid c (half_turn c).
  Proof.
    intros [cx cy]. split.
    - unfold half_turn. cbn [fst snd]. f_equal; ring.
    - intros [px py] [qx qy]. unfold half_turn, dist2. cbn [fst snd]. ring.
  Qed.
End Rigid.

Theorem C15_rigid : forall s, Forall (rigid (centre s)) (symmetries s).
Proof.
  intros s. unfold symmetries. assert (Forall (rigid (centre s)) (rotations s)) as R1.
  { unfold rotations. apply Forall_forall. intros g H. apply in_map_iff in H. destruct H as (i & <- & _). apply rotation_rigid. }
  assert (Forall (rigid (centre s)) (mirrors s)) as M1.
  { unfold mirrors. apply Forall_forall. intros g H. apply in_map_iff in H. destruct H as (i & <- & _). apply mirror_rigid. }
  destruct (s_type s); repeat constructor; auto; try apply mirror_rigid; try apply half_turn_rigid. apply Forall_app. auto.
Qed.
(** mirroring twice gives the point back, and leaves exactly the axis fixed *)
Theorem C15_mirror : forall c phi p,
  mirror c phi (mirror c phi p) = p /\
  (mirror c phi p = p <-> (snd p - snd c) * cos phi = (fst p - fst c) * sin phi)%R.
Proof.
  intros [cx cy] phi [px py]. split.
  - rewrite !mirror_eq. cbn [fst snd]. pose proof (sin2cos2 (2 * phi)) as S.
    set (C := cos (2 * phi)) in *. set (T := sin (2 * phi)) in *. f_equal.
    + transitivity (cx + (T * T + C * C) * (px - cx))%R; [ring|rewrite S; ring].
    + transitivity (cy + (T * T + C * C) * (py - cy))%R; [ring|rewrite S; ring].
  - unfold mirror. cbn [fst snd]. pose proof (sin2cos2 phi) as S. set (C := cos phi) in *. set (T := sin phi) in *.
    assert (exists u v, px = cx + u /\ py = cy + v)%R as (u & v & -> & ->) by (exists (px - cx)%R, (py - cy)%R; split; ring).
    replace (cx + u - cx)%R with u by ring. replace (cy + v - cy)%R with v by ring. split.
    + intros E. injection E as E1 E2.
      assert ((u * C + v * T) * C = u)%R as F1 by lra. assert ((u * C + v * T) * T = v)%R as F2 by lra.
      transitivity ((u * C + v * T) * T * C)%R; [rewrite F2; ring|]. transitivity ((u * C + v * T) * C * T)%R; [ring|rewrite F1; ring].
    + intros E. assert ((u * C + v * T) * C = u)%R as F1.
      { transitivity (u * (T * T + C * C) + T * (v * C - u * T))%R; [ring|rewrite S, E; ring]. }
      assert ((u * C + v * T) * T = v)%R as F2.
      { transitivity (v * (T * T + C * C) - C * (v * C - u * T))%R; [ring|rewrite S, E; ring]. }
      f_equal; lra.
Qed.

(** ** Footprints *)
Section Footprint.
  Local Open Scope R_scope.
  (** an angle is only relevant modulo half a turn *)
  Lemma half_turns : forall x (k : Z), exists e, e * e = 1 /\ cos (x + IZR k * PI) = e * cos x /\ sin (x + IZR k * PI) = e * sin x.
  Proof.
    intros x k.
    assert (forall n x, exists e, e * e = 1 /\ cos (x + INR n * PI) = e * cos x /\ sin (x + INR n * PI) = e * sin x) as N.
    { induction n as [|n IH]; intros z.
      - exists 1. replace (z + INR 0 * PI) with z by (cbn; ring). repeat split; ring.
      - destruct (IH z) as (e & E1 & E2 & E3). exists (- e). replace (z + INR (S n) * PI) with (z + INR n * PI + PI) by (rewrite S_INR; ring).
        rewrite neg_cos, neg_sin, E2, E3. repeat split; try ring. rewrite <- E1. ring. }
    destruct (Z_le_gt_dec 0 k) as [Hk|Hk].
    - destruct (N (Z.to_nat k) x) as (e & H). exists e. rewrite INR_IZR_INZ, Z2Nat.id in H by lia. exact H.
    - destruct (N (Z.to_nat (- k)) (x + IZR k * PI)) as (e & E1 & E2 & E3). exists e.
      rewrite INR_IZR_INZ, Z2Nat.id in E2, E3 by lia. rewrite opp_IZR in E2, E3.
      replace (x + IZR k * PI + - IZR k * PI) with x in E2, E3 by ring. split; [auto|]. rewrite E2, E3.
      split; rewrite <- Rmult_assoc, E1; ring.
  Qed.

  Lemma mirror_shape : forall c phi p angle beta (k : Z), radians beta = 2 * phi - radians angle + IZR k * PI ->
    forall aspect radius q, shape (mirror c phi p) beta aspect radius (mirror c phi q) = shape p angle aspect radius q.
  Proof.
    intros c phi p angle beta k Hb aspect radius q. rewrite !mirror_eq. unfold shape. rewrite Hb.
    destruct (half_turns (2 * phi - radians angle) k) as (e & E1 & -> & ->).
    destruct c as [cx cy], p as [px py], q as [qx qy]. cbn [fst snd]. rewrite cos_minus, sin_minus.
    pose proof (sin2cos2 (2 * phi)) as S. set (C := cos (2 * phi)) in *. set (T := sin (2 * phi)) in *.
    set (ca := cos (radians angle)). set (sa := sin (radians angle)).
    set (u := qx - px). set (v := qy - py).
    match goal with |- (?a * (?b1) * (?a * ?b2) + ?c1 * ?c2) / _ = _ =>
      assert (b1 = - e * ((T * T + C * C) * (v * ca - u * sa))) as -> by (unfold u, v; ring);
      assert (c1 = e * ((T * T + C * C) * (u * ca + v * sa))) as -> by (unfold u, v; ring) end.
    rewrite S. f_equal.
    transitivity (e * e * (aspect * (v * ca - u * sa) * (aspect * (v * ca - u * sa)) + (u * ca + v * sa) * (u * ca + v * sa))); [ring|rewrite E1; ring].
  Qed.
  Lemma rotation_shape : forall c phi p angle beta (k : Z), radians beta = radians angle + phi + IZR k * PI ->
    forall aspect radius q, shape (rotation c phi p) beta aspect radius (rotation c phi q) = shape p angle aspect radius q.
  Proof.
    intros c phi p angle beta k Hb aspect radius q. unfold rotation, shape. rewrite Hb.
    destruct (half_turns (radians angle + phi) k) as (e & E1 & -> & ->).
    destruct c as [cx cy], p as [px py], q as [qx qy]. cbn [fst snd]. rewrite cos_plus, sin_plus.
    pose proof (sin2cos2 phi) as S. set (C := cos phi) in *. set (T := sin phi) in *.
    set (ca := cos (radians angle)). set (sa := sin (radians angle)).
    set (u := qx - px). set (v := qy - py).
    match goal with |- (?a * (?b1) * (?a * ?b2) + ?c1 * ?c2) / _ = _ =>
      assert (b1 = e * ((T * T + C * C) * (v * ca - u * sa))) as -> by (unfold u, v; ring);
      assert (c1 = e * ((T * T + C * C) * (u * ca + v * sa))) as -> by (unfold u, v; ring) end.
    rewrite S. f_equal.
    transitivity (e * e * (aspect * (v * ca - u * sa) * (aspect * (v * ca - u * sa)) + (u * ca + v * sa) * (u * ca + v * sa))); [ring|rewrite E1; ring].
  Qed.
  Lemma half_turn_shape : forall c p angle aspect radius q,
    shape (half_turn c p) angle aspect radius (half_turn c q) = shape p angle aspect radius q.
  Proof. intros [cx cy] [px py] angle aspect radius [qx qy]. unfold half_turn, shape. cbn [fst snd]. f_equal. ring. Qed.
End Footprint.

(** ** The transforms computed by the library *)
Section Transforms.
  Local Open Scope R_scope.
  Lemma reflect_act : forall (s : symstate numR) m a p, affine m ->
    act (translate (reflect trigR m a) (s_cx s) (s_cy s)) p =
    (s_cx s + (cos (2 * a) * fst (act m p) + sin (2 * a) * snd (act m p)), s_cy s + (sin (2 * a) * fst (act m p) - cos (2 * a) * snd (act m p))).
  Proof.
    intros s m a p Hm. destruct (C44_meaning m p a 0 0 Hm) as (_ & _ & (A1 & A2)).
    destruct (C44_meaning (reflect trigR m a) p 0 (s_cx s) (s_cy s) A1) as ((_ & ->) & _). rewrite A2. cbn [fst snd]. f_equal; apply Rplus_comm.
  Qed.
  Lemma origin_affine : forall s, affine (centre_origin s).
  Proof. intros s. unfold affine, centre_origin. calc. repeat split; ring. Qed.
  Lemma origin_act : forall s p, act (centre_origin s) p = (fst p - s_cx s, snd p - s_cy s).
  Proof. intros s [x y]. unfold centre_origin, act. calc. f_equal; ring. Qed.
  Lemma rotate_cw_ccw : forall m a, rotate_cw trigR m a = rotate_ccw trigR m (- a).
  Proof. intros m a. unfold rotate_cw, rotate_ccw. f_equal. apply mat_ext; calc; rewrite ?cos_neg, ?sin_neg; ring. Qed.
  Lemma rotate_act : forall m a p, affine m -> affine (rotate_cw trigR m a) /\ act (rotate_cw trigR m a) p =
    (cos (- a) * fst (act m p) - sin (- a) * snd (act m p), sin (- a) * fst (act m p) + cos (- a) * snd (act m p)).
  Proof. intros m a p Hm. rewrite rotate_cw_ccw. destruct (C44_meaning m p (- a) 0 0 Hm) as (_ & H & _). exact H. Qed.

  Lemma reflect_is_mirror : forall (s : symstate numR) a p, act (translate (reflect trigR (centre_origin s) a) (s_cx s) (s_cy s)) p = mirror (centre s) a p.
  Proof. intros. rewrite reflect_act, origin_act, mirror_eq by apply origin_affine. reflexivity. Qed.
  Lemma rotate_is_rotation : forall (s : symstate numR) a p, act (translate (rotate_cw trigR (centre_origin s) a) (s_cx s) (s_cy s)) p = rotation (centre s) (- a) p.
  Proof.
    intros. destruct (rotate_act (centre_origin s) a p (origin_affine s)) as (Ha & E).
    destruct (C44_meaning _ p 0 (s_cx s) (s_cy s) Ha) as ((_ & ->) & _). rewrite E, origin_act. unfold rotation, centre. cbn [fst snd].
    f_equal; apply Rplus_comm.
  Qed.
  Lemma rotated_mirror : forall (s : symstate numR) a b p,
    act (translate (reflect trigR (rotate_cw trigR (centre_origin s) a) b) (s_cx s) (s_cy s)) p = mirror (centre s) (b + a / 2) p.
  Proof.
    intros. destruct (rotate_act (centre_origin s) a p (origin_affine s)) as (Ha & E). rewrite reflect_act, E, origin_act, mirror_eq by auto.
    cbn [fst snd centre]. replace (2 * (b + a / 2)) with (2 * b + a) by field. rewrite cos_plus, sin_plus, cos_neg, sin_neg. unfold centre. cbn [fst snd]. f_equal; ring.
  Qed.

  Ltac R_ops := repeat match goal with
    | |- context [@nneg numR ?a] => change (@nneg numR a) with (0 - a)%R
    | |- context [@nmul numR ?a ?b] => change (@nmul numR a b) with (a * b)%R
    | |- context [@nsub numR ?a ?b] => change (@nsub numR a b) with (a - b)%R
    | |- context [@nadd numR ?a ?b] => change (@nadd numR a b) with (a + b)%R
    | |- context [@nofZ numR ?a] => change (@nofZ numR a) with (IZR a)
    | |- context [deg_to_rad trigR ?a] => change (deg_to_rad trigR a) with (radians a)
    | |- context [quarter_turn trigR ?a] => change (quarter_turn trigR a) with (a + PI / 2)%R
    | |- context [turn_part trigR ?a] => change (turn_part trigR a) with (2 * PI / IZR a)%R
    | |- context [turn_part_deg trigR ?a] => change (turn_part_deg trigR a) with (360 / IZR a)%R
    | |- context [mirror_deg trigR ?a ?b] => change (mirror_deg trigR a b) with (-2 * a - b)%R
    end.

  (** one transform and its dab angle *)
  Lemma image_mirror : forall (s : symstate numR) k phi x y angle beta boxes e (j : Z),
    (forall p, act (expected trigR s k) p = mirror (centre s) phi p) ->
    radians beta = 2 * phi - radians angle + IZR j * PI ->
    is_dab trigR s x y boxes (k, beta) e -> image_dab (mirror (centre s) phi) (x, y) angle e.
  Proof.
    intros s k phi x y angle beta boxes e j H1 H2 (D1 & D2 & _). cbn [fst snd] in *.
    assert ((e_x e, e_y e) = mirror (centre s) phi (x, y)) as E by (rewrite D1; apply (H1 (x, y))).
    split; [exact E|]. intros. rewrite E, D2. apply mirror_shape with j. exact H2.
  Qed.
  Lemma image_rotation : forall (s : symstate numR) k phi x y angle beta boxes e (j : Z),
    (forall p, act (expected trigR s k) p = rotation (centre s) phi p) ->
    radians beta = radians angle + phi + IZR j * PI ->
    is_dab trigR s x y boxes (k, beta) e -> image_dab (rotation (centre s) phi) (x, y) angle e.
  Proof.
    intros s k phi x y angle beta boxes e j H1 H2 (D1 & D2 & _). cbn [fst snd] in *.
    assert ((e_x e, e_y e) = rotation (centre s) phi (x, y)) as E by (rewrite D1; apply (H1 (x, y))).
    split; [exact E|]. intros. rewrite E, D2. apply rotation_shape with j. exact H2.
  Qed.

  Lemma Forall2_map_inv : forall X Y W (f : X -> Y) (P : Y -> W -> Prop) l l', Forall2 P (map f l) l' -> Forall2 (fun x w => P (f x) w) l l'.
  Proof. induction l; cbn; intros l' H; inversion H; subst; constructor; auto. Qed.
  Lemma Forall2_impl_in : forall X Y (P Q : X -> Y -> Prop) l l', (forall x y, In x l -> P x y -> Q x y) -> Forall2 P l l' -> Forall2 Q l l'.
  Proof. intros X Y P Q l l' H F. induction F; constructor; auto with datatypes. Qed.

  Lemma mirror_period : forall c phi p, mirror c (phi + PI) p = mirror c phi p.
  Proof. intros. rewrite !mirror_eq. replace (2 * (phi + PI)) with (2 * phi + 2 * PI) by ring. rewrite <- (cos_period (2 * phi) 1), <- (sin_period (2 * phi) 1). cbn [INR]. rewrite !Rmult_1_r. auto. Qed.

  (** The extra dabs are the images of the dab under the symmetries asked for. *)
  Lemma images : forall (s : symstate numR) x y angle boxes l, sane s ->
    Forall2 (is_dab trigR s x y boxes) (order trigR s angle) l ->
    Forall2 (fun g e => image_dab g (x, y) angle e) (symmetries s) l.
  Proof.
    intros s x y angle boxes l (S1 & S2) H.
    assert (forall l, (2 <= s_lines s)%Z -> (s_type s = Rotational \/ s_type s = Snowflake) -> Forall2 (is_dab trigR s x y boxes) (rotations_of trigR s angle) l ->
             Forall2 (fun g e => image_dab g (x, y) angle e) (rotations s) l) as Rot.
    { clear l H. intros l Hn Ht H. unfold rotations_of in H. unfold rotations. apply Forall2_map_l. apply Forall2_map_inv in H.
      eapply Forall2_impl_in; [|exact H]. clear H. intros i e Hi D. apply in_zrange in Hi.
      assert (IZR (s_lines s) <> 0) as Hn0 by (apply IZR_neq; lia).
      eapply (image_rotation s (i - 1) _ x y angle _ boxes e 0); [| |exact D].
      - intros p. unfold expected, base.
        assert (rotate_cw trigR (centre_origin s) (2 * PI / IZR (s_lines s) * IZR (i - 1 + 1)) =
                match s_type s with Rotational | Snowflake => rotate_cw trigR (centre_origin s) (2 * PI / IZR (s_lines s) * IZR (i - 1 + 1)) | _ => transform_unit end) as _ by (destruct Ht as [-> | ->]; reflexivity).
        destruct Ht as [-> | ->]; [|destruct (Z.ltb_spec (i - 1) (s_lines s - 1)); [|lia]]; R_ops;
          rewrite rotate_is_rotation; f_equal; replace (i - 1 + 1)%Z with i by lia; field; auto.
      - R_ops. unfold radians. field. auto. }
    unfold symmetries, order in *. destruct (s_type s) eqn:Et.
    - inversion H as [|? e ? l0 D L]; subst. inversion L; subst. constructor; [|constructor].
      eapply (image_mirror s 0 _ x y angle _ boxes e 0); [| |exact D].
      + intros p. unfold expected, base. rewrite Et. R_ops. rewrite reflect_is_mirror. unfold line_angle, radians. f_equal. ring.
      + R_ops. unfold line_angle, radians. field.
    - inversion H as [|? e ? l0 D L]; subst. inversion L; subst. constructor; [|constructor].
      eapply (image_mirror s 0 _ x y angle _ boxes e 0); [| |exact D].
      + intros p. unfold expected, base. rewrite Et. R_ops. rewrite reflect_is_mirror. unfold line_angle, radians. f_equal. ring.
      + R_ops. unfold line_angle, radians. field.
    - inversion H as [|? e ? l0 D L]; subst. inversion L as [|? e1 ? l1 D1 L1]; subst. inversion L1 as [|? e2 ? l2 D2 L2]; subst. inversion L2; subst.
      assert (forall p, act (base trigR s 0) p = (fst (act (base trigR s 0) p), snd (act (base trigR s 0) p))) as _ by (intros; apply surjective_pairing).
      constructor; [|constructor; [|constructor; [|constructor]]].
      + eapply (image_mirror s 0 _ x y angle _ boxes e 0); [| |exact D].
        * intros p. unfold expected, base. rewrite Et. change (0 =? 0)%Z with true. cbv iota. R_ops. rewrite reflect_is_mirror. unfold line_angle, radians. f_equal. ring.
        * R_ops. unfold line_angle, radians. field.
      + destruct D1 as (E1 & E2 & _). cbn [fst snd] in E1, E2.
        assert (forall p, act (expected trigR s 1) p = half_turn (centre s) p) as Hp.
        { intros p. unfold expected, base. rewrite Et. change (1 =? 0)%Z with false. change (1 =? 1)%Z with true. cbv iota. R_ops.
          set (m := centre_origin s). set (a := 0 - radians (s_angle s)).
          destruct (C44_meaning m p a 0 0 (origin_affine s)) as (_ & _ & (A1 & A2)).
          rewrite reflect_act, A2 by auto. unfold m. rewrite origin_act. cbn [fst snd].
          replace (2 * (0 - (radians (s_angle s) + PI / 2))) with (2 * a - PI) by (unfold a; field).
          rewrite cos_minus, sin_minus, cos_PI, sin_PI.
          pose proof (sin2cos2 (2 * a)) as S. set (C := cos (2 * a)) in *. set (T := sin (2 * a)) in *.
          unfold half_turn, centre. destruct p as [px py]. cbn [fst snd]. f_equal.
          - transitivity (s_cx s - (T * T + C * C) * (px - s_cx s)); [ring|rewrite S; ring].
          - transitivity (s_cy s - (T * T + C * C) * (py - s_cy s)); [ring|rewrite S; ring]. }
        assert ((e_x e1, e_y e1) = half_turn (centre s) (x, y)) as E by (rewrite E1; apply (Hp (x, y))).
        split; [exact E|]. intros. rewrite E, E2. apply half_turn_shape.
      + eapply (image_mirror s 2 _ x y angle _ boxes e2 1); [| |exact D2].
        * intros p. unfold expected, base. rewrite Et. change (2 =? 0)%Z with false. change (2 =? 1)%Z with false. cbv iota. R_ops.
          set (m := centre_origin s). set (a := 0 - radians (s_angle s)). set (b := 0 - (radians (s_angle s) + PI / 2)).
          destruct (C44_meaning m p a 0 0 (origin_affine s)) as (_ & _ & (A1 & A2)).
          destruct (C44_meaning (reflect trigR m a) p b 0 0 A1) as (_ & _ & (B1 & B2)).
          rewrite reflect_act, B2, A2 by auto. unfold m. rewrite origin_act. cbn [fst snd]. rewrite mirror_eq.
          replace (2 * b) with (2 * a - PI) by (unfold a, b; field).
          replace (2 * (line_angle s - PI / 2)) with (2 * a - PI) by (unfold a, line_angle, radians; field).
          rewrite cos_minus, sin_minus, cos_PI, sin_PI.
          pose proof (sin2cos2 (2 * a)) as S. set (C := cos (2 * a)) in *. set (T := sin (2 * a)) in *.
          unfold centre. cbn [fst snd]. destruct p as [px py]. cbn [fst snd]. set (u := px - s_cx s). set (v := py - s_cy s). f_equal.
          -- transitivity (s_cx s - (T * T + C * C) * (C * u + T * v)); [ring|rewrite S; ring].
          -- transitivity (s_cy s - (T * T + C * C) * (T * u - C * v)); [ring|rewrite S; ring].
        * R_ops. unfold line_angle, radians. field.
    - apply Rot; auto.
    - apply Forall2_app_inv_l in H. destruct H as (l1 & l2 & H1 & H2 & ->). apply Forall2_app; [|apply Rot; auto].
      unfold mirrors_of in H1. unfold mirrors. apply Forall2_map_l. apply Forall2_map_inv in H1.
      eapply Forall2_impl_in; [|exact H1]. clear H1. intros i e Hi D. apply in_zrange in Hi.
      assert (IZR (s_lines s) <> 0) as Hn0 by (apply IZR_neq; lia).
      eapply (image_mirror s (s_lines s - 1 + i)%Z _ x y angle _ boxes e 0); [| |exact D].
      + intros p. unfold expected, base. rewrite Et. destruct (Z.ltb_spec (s_lines s - 1 + i) (s_lines s - 1)); [lia|].
        replace (s_lines s - 1 + i - (s_lines s - 1))%Z with i by lia. R_ops. rewrite rotated_mirror. f_equal.
        rewrite opp_IZR. unfold line_angle, radians. field. auto.
      + R_ops. unfold line_angle, radians. field. auto.
    - inversion H. constructor.
  Qed.
End Transforms.

(** ** Histories *)
Inductive event :=
| SetSymmetry (active : bool) (cx cy angle : R) (ty : symtype) (lines : Z)
| BeginAtomic (alloc_ok : bool).

Definition step (d : symdata numR) (e : event) : outcome (symdata numR) :=
  match e with
  | SetSymmetry active cx cy angle ty lines => Ok (@set_pending numR d active cx cy angle ty lines)
  | BeginAtomic ok => update_symmetry_state trigR ok d
  end.
(** the surface as created (allocation [ok0]) and then used *)
Definition run (ok0 : bool) (evs : list event) : outcome (symdata numR) :=
  let* d := default_symmetry_data trigR ok0 in ofold step evs d.

(** What the user expects: the settings requested last and those in force since
    the last begin_atomic. *)
Record wish := mkWish { requested : symstate numR; in_force : symstate numR; switched_on : bool }.
Definition no_symmetry_yet : symstate numR := @mkSym numR Vertical 0%R 0%R 0%R 2.
Definition wish_step (w : wish) (e : event) : wish :=
  match e with
  | SetSymmetry active cx cy angle ty lines => mkWish (@mkSym numR ty cx cy angle (Z.max 2 lines)) (in_force w) active
  | BeginAtomic _ => mkWish (requested w) (requested w) (switched_on w)
  end.
Definition wishes (evs : list event) : wish := fold_left wish_step evs (mkWish no_symmetry_yet no_symmetry_yet false).

Definition lines_ok (e : event) : Prop := match e with SetSymmetry _ _ _ _ _ lines => lines <= MAXLINES | _ => True end.
Definition alloc_ok (e : event) : Prop := match e with BeginAtomic ok => ok = true | _ => True end.

Lemma states_equal_R : forall a b : symstate numR, states_equal a b = true -> a = b.
Proof.
  intros [t x y g n] [t' x' y' g' n'] H. unfold states_equal in H. cbn [s_type s_cx s_cy s_angle s_lines] in H.
  apply andb_true_iff in H. destruct H as (H & H5). apply andb_true_iff in H. destruct H as (H & H4).
  apply andb_true_iff in H. destruct H as (H & H3). apply andb_true_iff in H. destruct H as (H1 & H2).
  apply Z.eqb_eq in H5. cbn [neqb numR] in *.
  assert (forall u v, Req_bool u v = true -> u = v) as Rq by (intros u v; destruct (Req_bool_spec u v); congruence).
  apply Rq in H2, H3, H4. subst. f_equal. destruct t, t'; cbn in H1; try discriminate; auto. apply Z.eqb_eq in H1. subst. auto.
Qed.

Lemma run_inv : forall evs, Forall lines_ok evs -> Forall alloc_ok evs ->
  exists d, run true evs = Ok d /\ wfs trigR d /\ sd_pend d = requested (wishes evs) /\ sd_cur d = in_force (wishes evs) /\
    sd_active d = switched_on (wishes evs) /\ sd_num d <> 0.
Proof.
  intros evs. unfold run. destruct (default_wf trigR true) as (d0 & -> & W0 & A0 & P0 & C0). cbn [obind]. destruct (C0 eq_refl) as (N0 & E0).
  unfold wishes.
  enough (forall evs d w, wfs trigR d -> sd_pend d = requested w -> sd_cur d = in_force w -> sd_active d = switched_on w -> sd_num d <> 0 ->
    (sd_changes d = false -> sd_cur d = sd_pend d) ->
    Forall lines_ok evs -> Forall alloc_ok evs ->
    exists d', ofold step evs d = Ok d' /\ wfs trigR d' /\ sd_pend d' = requested (fold_left wish_step evs w) /\ sd_cur d' = in_force (fold_left wish_step evs w) /\
      sd_active d' = switched_on (fold_left wish_step evs w) /\ sd_num d' <> 0) as X.
  { apply X; auto. rewrite E0. auto. }
  clear. induction evs as [|e evs IH]; intros d w W P C Ac N J Fl Fa.
  - exists d. do 5 (split; [auto|]). auto.
  - inversion Fl; subst. inversion Fa; subst. cbn [ofold fold_left]. destruct e as [active cx cy angle ty lines|ok]; cbn [step lines_ok alloc_ok] in *.
    + cbn [obind]. apply IH; auto.
      * apply set_pending_wf; auto.
      * unfold set_pending, wish_step, MAXLINES in *. cbn [sd_pend requested]. rewrite fl_small by lia. reflexivity.
      * discriminate.
    + subst ok. destruct (update_ok trigR true d W) as (d1 & -> & W1 & P1 & A1 & Cs). cbn [obind].
      assert (sd_cur d1 = sd_pend d /\ sd_num d1 <> 0) as (C1 & N1).
      { destruct Cs as [(X1 & X2 & _)|[(-> & [X|X])|(X & _)]]; try discriminate; auto. apply states_equal_R in X. auto. }
      apply IH; auto; cbn [wish_step requested in_force switched_on]; try congruence.
Qed.

(** After any history the extra dabs are the images of the dab under the
    symmetries that were requested last before the last begin_atomic; what was
    requested later has no effect yet (except switching symmetry on or off). *)
Theorem C16_in_force_since_begin_atomic : forall evs boxes x y angle, Forall lines_ok evs -> Forall alloc_ok evs ->
  enough_boxes (in_force (wishes evs)) boxes ->
  exists d l used, run true evs = Ok d /\ symmetry_pass trigR d boxes x y angle = Ok (l, used) /\
    Forall2 (fun g e => image_dab g (x, y) angle e)
            (if switched_on (wishes evs) then symmetries (in_force (wishes evs)) else []) l.
Proof.
  intros evs boxes x y angle Fl Fa Hb. destruct (run_inv evs Fl Fa) as (d & E & W & P & C & Ac & N).
  rewrite <- C in Hb. destruct (pass_ok trigR d boxes x y angle W Hb) as (l & used & E1 & _ & L).
  exists d, l, used. split; [exact E|]. split; [exact E1|]. rewrite Ac in L. destruct (switched_on (wishes evs)); cbn [andb] in L.
  - destruct (Z.eqb_spec (sd_num d) 0); [contradiction|]. cbn [negb] in L. rewrite C in L. eapply images; [|exact L]. rewrite <- C. apply W.
  - inversion L. constructor.
Qed.

(** The part of C16 about calls during an atomic operation, spelled out. *)
Corollary C16_no_effect_before_begin : forall evs later, Forall (fun e => match e with BeginAtomic _ => False | _ => True end) later ->
  in_force (wishes (evs ++ later)) = in_force (wishes evs).
Proof.
  intros evs later H. unfold wishes. rewrite fold_left_app. generalize (fold_left wish_step evs (mkWish no_symmetry_yet no_symmetry_yet false)).
  induction later as [|e later IH]; intros w; auto. inversion H; subst. cbn [fold_left]. rewrite IH by auto. destruct e; [reflexivity|contradiction].
Qed.

(** C15 as a statement about one symmetry setting made and put into force. *)
Theorem C15_named_symmetries : forall ty cx cy theta lines boxes x y angle, lines <= MAXLINES ->
  let s := @mkSym numR ty cx cy theta (Z.max 2 lines) in
  enough_boxes s boxes ->
  exists d l used, run true [SetSymmetry true cx cy theta ty lines; BeginAtomic true] = Ok d /\
    symmetry_pass trigR d boxes x y angle = Ok (l, used) /\
    Forall2 (fun g e => image_dab g (x, y) angle e) (symmetries s) l.
Proof.
  intros ty cx cy theta lines boxes x y angle Hl s Hb.
  destruct (C16_in_force_since_begin_atomic [SetSymmetry true cx cy theta ty lines; BeginAtomic true] boxes x y angle) as (d & l & used & H); auto.
  { repeat constructor; auto. } { repeat constructor. }
  exists d, l, used. exact H.
Qed.

(** When an allocation failed, returning to the settings in force before leaves
    the symmetry off although it is requested. *)
Lemma default_num : forall d, default_symmetry_data trigR true = Ok d -> sd_num d = 16.
Proof.
  intros d. unfold default_symmetry_data. rewrite SymmetryProofs.alloc_ok by lia. cbv beta iota. unfold update_symmetry_state.
  cbn [sd_changes negb orb sd_cur sd_pend states_equal symtype_eqb s_type andb num_matrices_required obind sd_num].
  change (16 <? 1) with false. cbv beta iota. cbn [negb sd_pend sd_mats].
  destruct (fill_matrices trigR _ _) as [[ms|]| |]; cbn [obind]; try discriminate.
  - destruct (ofold _ _ _); cbn [obind]; try discriminate. intros H. injection H as <-. reflexivity.
  - intros H. injection H as <-. reflexivity.
Qed.
Theorem C16_after_failed_allocation_refuted : exists evs d, run true evs = Ok d /\
  switched_on (wishes evs) = true /\ in_force (wishes evs) = no_symmetry_yet /\
  symmetries no_symmetry_yet <> [] /\
  forall x y angle, symmetry_pass trigR d 32 x y angle = Ok ([], 1).
Proof.
  exists [SetSymmetry true 0%R 0%R 0%R Rotational 100; BeginAtomic false; SetSymmetry true 0%R 0%R 0%R Vertical 2; BeginAtomic true].
  unfold run. destruct (default_wf trigR true) as (d0 & E & W0 & A0 & P0 & C0). rewrite E. apply default_num in E. cbn [obind]. destruct (C0 eq_refl) as (N0 & E0).
  cbn [ofold step obind].
  assert (update_symmetry_state trigR false (@set_pending numR d0 true 0%R 0%R 0%R Rotational 100) =
          Ok (mkSymData (sd_cur d0) (@mkSym numR Rotational 0%R 0%R 0%R 100) true true 0 (sd_mats d0))) as ->.
  { unfold update_symmetry_state, set_pending. rewrite fl_small by lia. rewrite Z.max_r by lia. cbn [sd_changes negb orb sd_cur sd_pend].
    rewrite E0, P0. cbn [states_equal symtype_eqb s_type andb].
    rewrite required_count by (split; cbn; unfold MAXLINES; lia). cbn [obind count s_type s_lines sd_num]. rewrite E.
    change (16 <? 100 - 1) with true. cbv iota. rewrite SymmetryProofs.alloc_ok by lia. cbn [negb sd_cur sd_pend sd_changes sd_active sd_mats]. reflexivity. }
  cbn [obind]. unfold set_pending. rewrite fl_small by lia. cbn [sd_cur sd_pend sd_changes sd_active sd_mats sd_num].
  unfold update_symmetry_state at 1. cbn [sd_changes negb orb sd_cur sd_pend]. rewrite E0, P0.
  assert (states_equal (@mkSym numR Vertical (nofZ 0) (nofZ 0) (nofZ 0) 2) (@mkSym numR Vertical 0%R 0%R 0%R (Z.max 2 2)) = true) as ->.
  { unfold states_equal. cbn. rewrite Req_bool_true by auto. reflexivity. }
  eexists. split; [reflexivity|]. split; [reflexivity|]. split; [reflexivity|]. split; [discriminate|]. intros. reflexivity.
Qed.

(** ** Non-trivial cases *)
Lemma Forall2_length : forall X Y (P : X -> Y -> Prop) l l', Forall2 P l l' -> length l = length l'.
Proof. induction 1; cbn; auto. Qed.
Example C15_case_snowflake : exists d l used,
  run true [SetSymmetry true 10%R 20%R 30%R Snowflake 5; BeginAtomic true] = Ok d /\
  symmetry_pass trigR d 32 7%R 8%R 15%R = Ok (l, used) /\ length l = 9%nat /\
  nth_error (symmetries (@mkSym numR Snowflake 10%R 20%R 30%R 5)) 0 = Some (mirror (10, 20)%R (radians (- 30) - PI * 0 / 5)%R).
Proof.
  destruct (C15_named_symmetries Snowflake 10%R 20%R 30%R 5 32 7%R 8%R 15%R) as (d & l & used & E1 & E2 & L).
  - unfold MAXLINES; lia. - split; cbn; lia.
  - exists d, l, used. split; [exact E1|]. split; [exact E2|]. split; [|reflexivity]. apply Forall2_length in L. rewrite <- L. reflexivity.
Qed.
(** a dab at (12, 5) mirrored across a vertical line at x = 10 lands at (8, 5) *)
Example C15_case_vertical : forall g, In g (symmetries (@mkSym numR Vertical 10%R 20%R 0%R 2)) -> g (12, 5)%R = (8, 5)%R.
Proof.
  intros g [<-|[]]. unfold mirror, line_angle, radians, centre. cbn [fst snd s_cx s_cy s_angle].
  replace (- 0 * (PI / 180) - PI / 2)%R with (- (PI / 2))%R by field. rewrite cos_neg, sin_neg, cos_PI2, sin_PI2. f_equal; ring.
Qed.
Example C16_case : let evs := [SetSymmetry true 1%R 2%R 0%R Rotational 3; BeginAtomic true; SetSymmetry true 1%R 2%R 0%R Horizontal 3] in
  s_type (in_force (wishes evs)) = Rotational /\ s_type (requested (wishes evs)) = Horizontal /\ Forall lines_ok evs /\ Forall alloc_ok evs /\
  enough_boxes (in_force (wishes evs)) 32 /\ length (symmetries (in_force (wishes evs))) = 2%nat.
Proof. cbv zeta. repeat split; cbn; try lia; repeat constructor; cbn; unfold MAXLINES; lia. Qed.

Print Assumptions C15_named_symmetries.
Print Assumptions C16_in_force_since_begin_atomic.
Print Assumptions C16_after_failed_allocation_refuted.
