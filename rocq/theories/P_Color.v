(** * C23-C26: colour space conversions and angles (exact arithmetic)

    [rgb_to_hsv mixR] etc. are the conversions of Color.v, computed in exact
    real arithmetic instead of C floats and doubles. *)
From Verif Require Import Base F32 Arith Color ColorProofs ColorHcyProofs.
From Coq Require Import Reals Lra.
From Flocq Require Import Core.Raux.
Local Open Scope R_scope.

Notation rcolor := (R * R * R)%type.
Definition in_unit (x : R) : Prop := 0 <= x <= 1.
(** all three components lie between 0 and 1 *)
Definition in_cube (c : rcolor) : Prop := let '(r, g, b) := c in in_unit r /\ in_unit g /\ in_unit b.
(** a hue in [0, 1), the other two coordinates in [0, 1] *)
Definition hue_and_units (c : rcolor) : Prop := let '(h, s, v) := c in 0 <= h < 1 /\ in_unit s /\ in_unit v.
Definition largest (c : rcolor) : R := let '(r, g, b) := c in Rmax r (Rmax g b).
Definition smallest (c : rcolor) : R := let '(r, g, b) := c in Rmin r (Rmin g b).
Definition grey (c : rcolor) : Prop := let '(r, g, b) := c in r = g /\ g = b.
(** no component differs by more than [d] *)
Definition within (d : R) (c c' : rcolor) : Prop :=
  let '(r, g, b) := c in let '(r', g', b') := c' in Rabs (r' - r) <= d /\ Rabs (g' - g) <= d /\ Rabs (b' - b) <= d.

Lemma largest_is : forall r g b, cmax3 RM r g b = largest (r, g, b).
Proof. intros. apply cmax3_is; unfold largest, Rmax; repeat destruct (Rle_dec _ _); lra. Qed.
Lemma smallest_is : forall r g b, cmin3 RM r g b = smallest (r, g, b).
Proof. intros. apply cmin3_is; unfold smallest, Rmin; repeat destruct (Rle_dec _ _); lra. Qed.
Lemma spread_is : forall r g b, spread r g b = largest (r, g, b) - smallest (r, g, b).
Proof. intros. unfold spread. rewrite largest_is, smallest_is. reflexivity. Qed.
Lemma grey_is : forall r g b, grey (r, g, b) -> spread r g b = 0.
Proof. intros r g b (-> & ->). rewrite spread_is. unfold largest, smallest, Rmax, Rmin. repeat destruct (Rle_dec _ _); lra. Qed.

(** ** C23: HSV *)

(** Whatever is converted, the results are in range. *)
Theorem C23_ranges :
  (forall c, hue_and_units (rgb_to_hsv mixR c)) /\
  (forall c, exists c', hsv_to_rgb mixR c = Ok c' /\ in_cube c').
Proof.
  split.
  - intros c. exact (rgb_hsv_range c).
  - intros c. destruct (hsv_rgb_range c) as (r & g & b & E & H). exists (r, g, b). split; [exact E|exact H].
Qed.

(** Converting to HSV and back is the identity for greys and for every colour
    whose components differ by more than 1/10000, and never moves a component
    by more than that. *)
Theorem C23_round_trip_partial : forall c, in_cube c ->
  (grey c \/ 1 / 10000 < largest c - smallest c -> hsv_to_rgb mixR (rgb_to_hsv mixR c) = Ok c) /\
  exists c', hsv_to_rgb mixR (rgb_to_hsv mixR c) = Ok c' /\ within (1 / 10000) c c'.
Proof.
  intros ((r, g), b) (Hr & Hg & Hb). rewrite <- spread_is.
  destruct (cmax3_R r g b) as (M1 & M2 & M3 & M). destruct (cmin3_R r g b) as (N1 & N2 & N3 & N).
  destruct (Rlt_le_dec (1 / 10000) (spread r g b)) as [P|P].
  - rewrite hsv_round by assumption. split; [intros _; reflexivity|]. exists (r, g, b). split; [reflexivity|].
    unfold within. rewrite !Rminus_diag_eq, Rabs_R0 by reflexivity. lra.
  - rewrite hsv_near by assumption. unfold spread in P. split.
    + intros [G|G]; [|unfold spread in G; lra]. destruct G as (-> & ->). f_equal. apply triple_eq; apply cmax3_is; lra.
    + eexists. split; [reflexivity|]. unfold within. repeat split; apply Rabs_le; lra.
Qed.

(** The other direction: coordinates with enough colour in them come back. *)
Theorem C23_round_trip_back_partial : forall h s v, 0 <= h < 1 -> in_unit s -> in_unit v -> 1 / 10000 < v * s ->
  exists c, hsv_to_rgb mixR (h, s, v) = Ok c /\ rgb_to_hsv mixR c = (h, s, v).
Proof. exact hsv_round_back. Qed.

(** Below the threshold the hue is lost: the full claim is false. *)
Theorem C23_near_grey_refuted : exists c, in_cube c /\ hsv_to_rgb mixR (rgb_to_hsv mixR c) <> Ok c.
Proof.
  exists (50005 / 100000, 1 / 2, 1 / 2). split; [unfold in_cube, in_unit; lra|].
  rewrite hsv_near; try (unfold unit_r; lra).
  - intros E. injection E as _ E _. rewrite (cmax3_is _ _ _ (50005 / 100000)) in E by lra. lra.
  - unfold spread. rewrite (cmax3_is _ _ _ (50005 / 100000)), (cmin3_is _ _ _ (1 / 2)) by lra. lra.
Qed.

Example C23_case : in_cube (3 / 4, 1 / 4, 1 / 2) /\
  1 / 10000 < largest (3 / 4, 1 / 4, 1 / 2) - smallest (3 / 4, 1 / 4, 1 / 2) /\
  rgb_to_hsv mixR (3 / 4, 1 / 4, 1 / 2) = (11 / 12, 2 / 3, 3 / 4).
Proof.
  assert (S : spread (3 / 4) (1 / 4) (1 / 2) = 1 / 2).
  { unfold spread. rewrite (cmax3_is _ _ _ (3 / 4)), (cmin3_is _ _ _ (1 / 4)) by lra. lra. }
  split; [unfold in_cube, in_unit; lra|]. rewrite <- spread_is, S. split; [lra|].
  rewrite rgb_to_hsv_R by (unfold unit_r; lra). unfold hue6. rewrite S, Rlt_bool_true by lra. rewrite (cmax3_is _ _ _ (3 / 4)) by lra.
  cbv zeta. rewrite Req_bool_true by reflexivity. rewrite Rlt_bool_true by lra. apply triple_eq; lra.
Qed.

(** ** C24: HSL *)
Theorem C24_ranges :
  (forall c, hue_and_units (rgb_to_hsl mixR c)) /\ (forall c, in_cube (hsl_to_rgb mixR c)).
Proof. split; [exact rgb_hsl_range|exact hsl_rgb_range]. Qed.

Theorem C24_round_trip : forall c, in_cube c -> hsl_to_rgb mixR (rgb_to_hsl mixR c) = c.
Proof. intros ((r, g), b) (Hr & Hg & Hb). apply hsl_round; assumption. Qed.

(** and back, except where the hue or the saturation means nothing *)
Theorem C24_round_trip_back : forall h s l, 0 <= h < 1 -> 0 < s <= 1 -> 0 < l < 1 ->
  rgb_to_hsl mixR (hsl_to_rgb mixR (h, s, l)) = (h, s, l).
Proof. exact hsl_round_back. Qed.

Example C24_case : rgb_to_hsl mixR (3 / 4, 1 / 4, 1 / 2) = (11 / 12, 1 / 2, 1 / 2).
Proof.
  assert (S : spread (3 / 4) (1 / 4) (1 / 2) = 1 / 2).
  { unfold spread. rewrite (cmax3_is _ _ _ (3 / 4)), (cmin3_is _ _ _ (1 / 4)) by lra. lra. }
  rewrite rgb_to_hsl_R by (try rewrite S; unfold unit_r; lra). cbv zeta. unfold hue6. rewrite S.
  rewrite (cmax3_is _ _ _ (3 / 4)), (cmin3_is _ _ _ (1 / 4)) by lra. rewrite Req_bool_true by reflexivity.
  rewrite Rlt_bool_true by lra. rewrite Rle_bool_true by lra. apply triple_eq; lra.
Qed.

(** ** C25: HCY *)

(** Any HCY coordinates give a displayable colour. *)
Theorem C25_gamut_partial : forall c, in_cube (hcy_to_rgb mixR c).
Proof. exact hcy_rgb_range. Qed.

(** The round trip is exact for colours with a component 0 and never moves a
    component by more than 1/20, as long as the luma (the third coordinate) is
    not exactly 1, where the code divides by zero. *)
Theorem C25_round_trip_partial : forall c, in_cube c ->
  (smallest c = 0 -> hcy_to_rgb mixR (rgb_to_hcy mixR c) = c) /\
  (snd (rgb_to_hcy mixR c) <> 1 -> within (1 / 20) c (hcy_to_rgb mixR (rgb_to_hcy mixR c))).
Proof.
  intros ((r, g), b) (Hr & Hg & Hb). rewrite <- smallest_is. split.
  - intros Z0. apply hcy_round_rim; assumption.
  - intros L. apply (hcy_round_near r g b); try assumption.
Qed.

(** The claim itself is false: the weights of the luma, 0.2162, 0.7152 and 0.0722,
    add up to 1.0036 (the weight of red has two digits swapped).  White gets a
    luma above 1, and a pale yellow comes back with another blue, off by more
    than 0.04. *)
Theorem C25_refuted :
  (exists c, in_cube c /\ 1 < snd (rgb_to_hcy mixR c)) /\
  (exists c, in_cube c /\ ~ within (4 / 100) c (hcy_to_rgb mixR (rgb_to_hcy mixR c))).
Proof.
  split.
  - exists (1, 1, 1). split; [unfold in_cube, in_unit; lra|]. rewrite rgb_to_hcy_grey. unfold luma. cbn [snd]. lra.
  - exists (1, 1, 94 / 100). split; [unfold in_cube, in_unit; lra|].
    assert (S : spread 1 1 (94 / 100) = 6 / 100).
    { unfold spread. rewrite (cmax3_is _ _ _ 1), (cmin3_is _ _ _ (94 / 100)) by lra. lra. }
    assert (X : hue6 1 1 (94 / 100) = 1).
    { unfold hue6. rewrite S, (cmax3_is _ _ _ 1) by lra. cbv zeta. rewrite Req_bool_true by reflexivity.
      replace ((1 - 94 / 100) / (6 / 100)) with 1 by field. rewrite Rlt_bool_false by lra. reflexivity. }
    assert (E : rgb_to_hcy mixR (1, 1, 94 / 100) = (1 / 6, 1, luma (1, 1, 94 / 100))).
    { rewrite rgb_to_hcy_R by (rewrite S; lra). cbv zeta. rewrite X. apply triple_eq; [reflexivity| |reflexivity].
      rewrite (cmax3_is _ _ _ 1), (cmin3_is _ _ _ (94 / 100)) by lra. unfold luma, Rmax. destruct (Rle_dec _ _) as [Q|Q].
      - field.
      - exfalso. apply Q. apply Rle_trans with 1; [|right; field]. apply div_unit; lra. }
    rewrite E. change (~ within (4 / 100) (1, 1, 94 / 100) (hcy_to_rgb RM (1 / 6, 1, luma (1, 1, 94 / 100)))).
    rewrite hcy_to_rgb_wheel by (unfold unit_r, luma; lra). rewrite frac_id by lra. replace (6 * (1 / 6)) with 1 by field.
    assert (T : tint 1 = 9314 / 10000) by (unfold tint; wheel_at 1%Z; unfold luma; field).
    unfold hcy_max, hcy_min. cbv zeta. rewrite T. rewrite Rle_bool_false by (unfold luma; lra). unfold luma. wheel_at 1%Z.
    intros (_ & _ & B). apply Rabs_le_inv in B. lra.
Qed.

Example C25_case : in_cube (3 / 4, 0, 1 / 2) /\ smallest (3 / 4, 0, 1 / 2) = 0 /\
  in_cube (3 / 4, 1 / 4, 1 / 2) /\ snd (rgb_to_hcy mixR (3 / 4, 1 / 4, 1 / 2)) <> 1.
Proof.
  split; [unfold in_cube, in_unit; lra|]. split; [unfold smallest, Rmin; repeat destruct (Rle_dec _ _); lra|].
  split; [unfold in_cube, in_unit; lra|].
  change (snd (rgb_to_hcy mixR (3 / 4, 1 / 4, 1 / 2))) with (luma (3 / 4, 1 / 4, 1 / 2)). unfold luma. lra.
Qed.

(** ** C26: angles *)
Definition congruent (n x y : R) : Prop := exists k : Z, x = y + IZR k * n.

Theorem C26_modulo : forall a n : R, 0 < n ->
  0 <= mod_arith mixR a n < n /\ congruent n (mod_arith mixR a n) a.
Proof.
  intros a n H. split; [apply (mod_arith_range a n H)|]. exists (- Zfloor (a / n))%Z.
  change (a - n * IZR (Zfloor (a / n)) = a + IZR (- Zfloor (a / n)) * n). rewrite opp_IZR. ring.
Qed.

(** the difference is the shortest way from one direction to the other *)
Theorem C26_angular_difference : forall a b : R,
  let d : R := smallest_angular_difference mixR a b in
  -180 <= d <= 180 /\ congruent 360 d (b - a) /\
  forall e, congruent 360 e (b - a) -> Rabs d <= Rabs e.
Proof.
  intros a b d. pose proof (C26_modulo (b - a + 180) 360 ltac:(lra)) as (R1 & (k & K)).
  assert (E : d = mod_arith mixR (b - a + 180) 360 - 180) by apply angular_R. 
  set (m := mod_arith mixR (b - a + 180) 360 : R) in *.
  assert (Kd : d = b - a + IZR k * 360) by lra.
  assert (Rd : -180 <= d < 180) by lra.
  clearbody d. clear E K R1 m. split; [lra|]. split; [exists k; exact Kd|].
  intros e (j & J). assert (De : e = d + IZR (j - k) * 360) by (rewrite minus_IZR; lra).
  generalize dependent (j - k)%Z. intros i De. clear J Kd.
  destruct (Z_lt_le_dec i 0) as [I|I].
  - assert (IZR i <= -1) by (apply IZR_le; Lia.lia). unfold Rabs. destruct (Rcase_abs d); destruct (Rcase_abs e); lra.
  - destruct (Z.eq_dec i 0) as [-> | I0]; [right; f_equal; lra|].
    assert (1 <= IZR i) by (apply IZR_le; Lia.lia). unfold Rabs. destruct (Rcase_abs d); destruct (Rcase_abs e); lra.
Qed.

Example C26_case : smallest_angular_difference mixR 350 10 = 20.
Proof.
  assert (F : (Zfloor ((10 - 350 + 180) / 360) = -1)%Z) by (apply Zfloor_imp; rewrite plus_IZR; lra).
  rewrite angular_R. rewrite mod_arith_R, F. lra.
Qed.

(** In C floats the modulo helper can return [n] itself: mod_arith(-2^-30, 360) = 360. *)
Theorem C26_float_modulo_refuted :
  feq (mod_arith mix64 (fdiv (f_of_Z (-1)) (f_of_Z 1073741824)) (f_of_Z 360)) (f_of_Z 360) = true.
Proof. exact eq_refl. Qed.

Print Assumptions C23_ranges.
Print Assumptions C23_round_trip_partial.
Print Assumptions C24_round_trip.
Print Assumptions C24_round_trip_back.
Print Assumptions C25_round_trip_partial.
Print Assumptions C25_refuted.
Print Assumptions C26_modulo.
Print Assumptions C26_angular_difference.
Print Assumptions C26_float_modulo_refuted.
