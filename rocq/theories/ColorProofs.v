(** The colour conversions of Color.v in exact real arithmetic. *)
From Verif Require Import Base F32 Arith Color.
From Coq Require Import Reals Lra.
From Flocq Require Import Core.Raux.
Local Open Scope R_scope.

Definition unit_r (x : R) : Prop := 0 <= x <= 1.

Ltac bools :=
  repeat match goal with
  | |- context [Rlt_bool ?a ?b] => destruct (Rlt_bool_spec a b)
  | |- context [Rle_bool ?a ?b] => destruct (Rle_bool_spec a b)
  | |- context [Req_bool ?a ?b] => destruct (Req_bool_spec a b)
  end.

Notation RM := mixR.

Lemma nlt_R : forall a b : R, @nlt numR a b = Rlt_bool a b. Proof. reflexivity. Qed.

Lemma clamp_R : forall x, clamp01 RM x = Rmax 0 (Rmin 1 x).
Proof.
  intros x. unfold clamp01. cbn [sng mixR numR nlt nofZ].
  unfold Rmax, Rmin. bools; destruct (Rle_dec 1 x); try lra; try destruct (Rle_dec 0 1); try destruct (Rle_dec 0 x); try lra.
Qed.
Lemma clamp_id : forall x, unit_r x -> clamp01 RM x = x.
Proof. intros x (H & K). unfold clamp01. cbn [sng mixR numR nlt nofZ]. bools; lra. Qed.
Lemma clamp_unit : forall x, unit_r (clamp01 RM x).
Proof. intros x. unfold clamp01, unit_r. cbn [sng mixR numR nlt nofZ]. bools; lra. Qed.

Lemma cmax3_R : forall a b c, a <= cmax3 RM a b c /\ b <= cmax3 RM a b c /\ c <= cmax3 RM a b c /\
  (cmax3 RM a b c = a \/ cmax3 RM a b c = b \/ cmax3 RM a b c = c).
Proof. intros. unfold cmax3, cmax. cbn [sng mixR numR nlt]. bools; repeat split; try lra; auto. Qed.
Lemma cmin3_R : forall a b c, cmin3 RM a b c <= a /\ cmin3 RM a b c <= b /\ cmin3 RM a b c <= c /\
  (cmin3 RM a b c = a \/ cmin3 RM a b c = b \/ cmin3 RM a b c = c).
Proof. intros. unfold cmin3, cmin. cbn [sng mixR numR nlt]. bools; repeat split; try lra; auto. Qed.

(** the fractional part of a number *)
Definition fraction (h : R) : R := h - IZR (Zfloor h).
Lemma frac_range : forall h, 0 <= fraction h < 1.
Proof. intros h. unfold fraction. pose proof (Zfloor_lb h). pose proof (Zfloor_ub h). lra. Qed.
Lemma frac_id : forall h, 0 <= h < 1 -> fraction h = h.
Proof. intros h H. unfold fraction. rewrite (Zfloor_imp 0) by (rewrite plus_IZR; lra). lra. Qed.

Lemma trunc_R : forall k x, (0 <= k)%Z -> IZR k <= x < IZR k + 1 -> Ztrunc x = k.
Proof.
  intros k x K H. rewrite Ztrunc_floor. - apply Zfloor_imp. rewrite plus_IZR. exact H.
  - apply Rle_trans with (IZR k); [apply (IZR_le 0); exact K|apply H].
Qed.

(** every number in [0, 6) lies in one of six intervals *)
Lemma sixths : forall x, 0 <= x < 6 -> exists k, (0 <= k <= 5)%Z /\ IZR k <= x < IZR k + 1.
Proof.
  intros x H. exists (Zfloor x). pose proof (Zfloor_lb x) as L. pose proof (Zfloor_ub x) as U. split; [|lra].
  split; [apply Zfloor_lub; simpl; lra|].
  assert (Zfloor x < 6)%Z; [|Lia.lia]. apply lt_IZR. simpl. lra.
Qed.

Lemma triple_eq : forall (A B C : Type) (a d : A) (b e : B) (c f : C), a = d -> b = e -> c = f -> (a, b, c) = (d, e, f).
Proof. intros. subst. reflexivity. Qed.
Ltac pick3 := try apply f_equal; apply triple_eq.

Lemma div_unit : forall a b, 0 < b -> 0 <= a <= b -> 0 <= a / b <= 1.
Proof.
  intros a b B H. split.
  - apply Rmult_le_pos; [lra|]. apply Rlt_le, Rinv_0_lt_compat. exact B.
  - apply (Rmult_le_reg_r b); [exact B|]. unfold Rdiv. rewrite Rmult_assoc, Rinv_l; lra.
Qed.
Lemma div_lt1 : forall a b, 0 < b -> a < b -> a / b < 1.
Proof. intros a b B H. apply (Rmult_lt_reg_r b); [exact B|]. unfold Rdiv. rewrite Rmult_assoc, Rinv_l; lra. Qed.
Lemma div_pos : forall a b, 0 < b -> 0 < a -> 0 < a / b.
Proof. intros a b B H. apply Rmult_lt_0_compat; [exact H|]. apply Rinv_0_lt_compat. exact B. Qed.

(** the difference between the largest and the smallest component *)
Definition spread (r g b : R) : R := cmax3 RM r g b - cmin3 RM r g b.
(** what the six sectors of the hue mean for the colour: [x] is six times the hue *)
Definition hue6 (r g b : R) : R :=
  let max := cmax3 RM r g b in let delta := spread r g b in
  if Req_bool r max then let h := (g - b) / delta in if Rlt_bool h 0 then h + 6 else h
  else if Req_bool g max then 2 + (b - r) / delta
  else if Req_bool b max then 4 + (r - g) / delta else 0.

(** sorted: in sector k the components are max, middle, min and the hue is given
    by the position of the middle one *)
Lemma hue6_cases : forall r g b, 0 < spread r g b ->
  let max := cmax3 RM r g b in let min := cmin3 RM r g b in let delta := spread r g b in let x := hue6 r g b in
  (0 <= x < 1 /\ r = max /\ b = min /\ g = min + delta * x) \/
  (1 <= x < 2 /\ g = max /\ b = min /\ r = min + delta * (2 - x)) \/
  (2 <= x < 3 /\ g = max /\ r = min /\ b = min + delta * (x - 2)) \/
  (3 <= x < 4 /\ b = max /\ r = min /\ g = min + delta * (4 - x)) \/
  (4 <= x < 5 /\ b = max /\ g = min /\ r = min + delta * (x - 4)) \/
  (5 <= x < 6 /\ r = max /\ g = min /\ b = min + delta * (6 - x)).
Proof.
  intros r g b P. cbv zeta. unfold hue6, spread in *.
  destruct (cmax3_R r g b) as (M1 & M2 & M3 & M). destruct (cmin3_R r g b) as (N1 & N2 & N3 & N).
  set (mx := cmax3 RM r g b) in *. set (mn := cmin3 RM r g b) in *. set (dl := mx - mn) in *. assert (Hdl : dl = mx - mn) by reflexivity. clearbody dl mx mn.
  assert (F : forall a, dl * (a / dl) = a) by (intros; field; lra).
  destruct (Req_bool_spec r mx) as [Er|Er].
  - destruct (Rle_lt_dec b g) as [L|L].
    + assert (B : 0 <= (g - b) / dl <= 1) by (apply div_unit; lra).
      rewrite Rlt_bool_false by lra.
      assert (Eb : b = mn) by lra.
      destruct (Req_dec g mx) as [Eg|Eg].
      * right; left. assert (E1 : (g - b) / dl = 1) by (replace (g - b) with dl by (lra); field; lra).
        rewrite E1. lra.
      * left. assert ((g - b) / dl < 1) by (apply div_lt1; lra). rewrite F. lra.
    + assert (B : 0 < (b - g) / dl <= 1).
      { split; [apply div_pos; lra|]. apply div_unit; lra. }
      assert (E : (g - b) / dl = - ((b - g) / dl)) by (field; lra). rewrite E.
      rewrite Rlt_bool_true by lra. right; right; right; right; right.
      assert (Eg : g = mn) by lra. specialize (F (b - g)). repeat split; try lra.
      all: replace (6 - (- ((b - g) / dl) + 6)) with ((b - g) / dl) by ring; lra.
  - destruct (Req_bool_spec g mx) as [Eg|Eg].
    + destruct (Rle_lt_dec r b) as [L|L].
      * assert (Ern : r = mn) by lra.
        assert (B : 0 <= (b - r) / dl <= 1) by (apply div_unit; lra).
        destruct (Req_dec b mx) as [Eb|Eb].
        -- right; right; right; left.
           assert (E1 : (b - r) / dl = 1) by (replace (b - r) with dl by (lra); field; lra). rewrite E1. lra.
        -- right; right; left. assert ((b - r) / dl < 1) by (apply div_lt1; lra).
           specialize (F (b - r)). replace (2 + (b - r) / dl - 2) with ((b - r) / dl) by ring. lra.
      * right; left. assert (Eb : b = mn) by lra.
        assert (B : 0 < (r - b) / dl < 1) by (split; [apply div_pos; lra|apply div_lt1; lra]).
        assert (E : (b - r) / dl = - ((r - b) / dl)) by (field; lra). rewrite E. specialize (F (r - b)).
        replace (2 - (2 + - ((r - b) / dl))) with ((r - b) / dl) by ring. lra.
    + assert (Eb : b = mx) by lra. rewrite Req_bool_true by exact Eb.
      destruct (Rle_lt_dec g r) as [L|L].
      * assert (Egn : g = mn) by lra.
        assert (B : 0 <= (r - g) / dl < 1) by (split; [apply div_unit; lra|apply div_lt1; lra]).
        right; right; right; right; left. specialize (F (r - g)).
        replace (4 + (r - g) / dl - 4) with ((r - g) / dl) by ring. lra.
      * assert (Ern : r = mn) by lra.
        assert (B : 0 < (g - r) / dl < 1) by (split; [apply div_pos; lra|apply div_lt1; lra]).
        right; right; right; left. assert (E : (r - g) / dl = - ((g - r) / dl)) by (field; lra). rewrite E. specialize (F (g - r)).
        replace (4 - (4 + - ((g - r) / dl))) with ((g - r) / dl) by ring. lra.
Qed.

Lemma spread_nonneg : forall r g b, 0 <= spread r g b.
Proof. intros. unfold spread. destruct (cmax3_R r g b) as (A & _). destruct (cmin3_R r g b) as (B & _). lra. Qed.

Lemma hue6_range : forall r g b, 0 < spread r g b -> 0 <= hue6 r g b < 6.
Proof. intros r g b P. pose proof (hue6_cases r g b P) as H. cbv zeta in H. lra. Qed.

(** ** The colour wheel: hue [x] in [0, 6), largest and smallest component *)
Definition wheel (x mx mn : R) : R * R * R :=
  let mid t := mn + (mx - mn) * t in
  if Rlt_bool x 1 then (mx, mid x, mn)
  else if Rlt_bool x 2 then (mid (2 - x), mx, mn)
  else if Rlt_bool x 3 then (mn, mx, mid (x - 2))
  else if Rlt_bool x 4 then (mn, mid (4 - x), mx)
  else if Rlt_bool x 5 then (mid (x - 4), mn, mx)
  else (mx, mn, mid (6 - x)).

Ltac wheel_at k :=
  unfold wheel;
  match k with
  | 0%Z => rewrite Rlt_bool_true by lra
  | 1%Z => rewrite Rlt_bool_false, Rlt_bool_true by lra
  | 2%Z => rewrite Rlt_bool_false, Rlt_bool_false, Rlt_bool_true by lra
  | 3%Z => rewrite Rlt_bool_false, Rlt_bool_false, Rlt_bool_false, Rlt_bool_true by lra
  | 4%Z => rewrite Rlt_bool_false, Rlt_bool_false, Rlt_bool_false, Rlt_bool_false, Rlt_bool_true by lra
  | 5%Z => rewrite !Rlt_bool_false by lra
  end.

(** every colour that is not grey is on the wheel ... *)
Lemma rgb_wheel : forall r g b, 0 < spread r g b ->
  (r, g, b) = wheel (hue6 r g b) (cmax3 RM r g b) (cmin3 RM r g b).
Proof.
  intros r g b P. pose proof (hue6_cases r g b P) as C. cbv zeta in C. unfold spread in C.
  destruct C as [C|[C|[C|[C|[C|C]]]]]; destruct C as (Bx & C1 & C2 & C3);
  [wheel_at 0%Z|wheel_at 1%Z|wheel_at 2%Z|wheel_at 3%Z|wheel_at 4%Z|wheel_at 5%Z]; pick3; auto.
Qed.

Lemma cmax3_is : forall a b c m, a <= m -> b <= m -> c <= m -> (m = a \/ m = b \/ m = c) -> cmax3 RM a b c = m.
Proof. intros a b c m A B C E. destruct (cmax3_R a b c) as (M1 & M2 & M3 & M). lra. Qed.
Lemma cmin3_is : forall a b c m, m <= a -> m <= b -> m <= c -> (m = a \/ m = b \/ m = c) -> cmin3 RM a b c = m.
Proof. intros a b c m A B C E. destruct (cmin3_R a b c) as (M1 & M2 & M3 & M). lra. Qed.

Lemma mid_range : forall mn mx t, mn <= mx -> 0 <= t <= 1 -> mn <= mn + (mx - mn) * t <= mx.
Proof.
  intros mn mx t L T. assert (0 <= (mx - mn) * t <= (mx - mn) * 1); [|lra].
  split; [apply Rmult_le_pos; lra|apply Rmult_le_compat_l; lra].
Qed.

(** ... and only there *)
Lemma wheel_spec : forall x mx mn r g b, mn < mx -> 0 <= x < 6 -> wheel x mx mn = (r, g, b) ->
  hue6 r g b = x /\ cmax3 RM r g b = mx /\ cmin3 RM r g b = mn.
Proof.
  intros x mx mn r g b L X E.
  assert (D : forall t, (mx - mn) * t / (mx - mn) = t) by (intros; field; lra).
  assert (D' : forall t, - ((mx - mn) * t) / (mx - mn) = - t) by (intros; field; lra).
  assert (K : exists k, (0 <= k <= 5)%Z /\ IZR k <= x < IZR k + 1) by (apply sixths; exact X).
  destruct K as (k & K & Bk).
  assert (MX : cmax3 RM r g b = mx /\ cmin3 RM r g b = mn).
  { pose proof (mid_range mn mx x ltac:(lra)). pose proof (mid_range mn mx (2 - x) ltac:(lra)).
    pose proof (mid_range mn mx (x - 2) ltac:(lra)). pose proof (mid_range mn mx (4 - x) ltac:(lra)).
    pose proof (mid_range mn mx (x - 4) ltac:(lra)). pose proof (mid_range mn mx (6 - x) ltac:(lra)).
    revert E. unfold wheel. bools; intros E; injection E as <- <- <-; split; first [apply cmax3_is|apply cmin3_is]; lra. }
  destruct MX as (MX & MN). split; [|auto]. unfold hue6, spread. rewrite MX, MN.
  revert E. unfold wheel.
  destruct (Rlt_bool_spec x 1) as [X1|X1].
  { intros E; injection E as <- <- <-. rewrite Req_bool_true by reflexivity. replace (mn + (mx - mn) * x - mn) with ((mx - mn) * x) by ring.
    rewrite D, Rlt_bool_false by lra. reflexivity. }
  destruct (Rlt_bool_spec x 2) as [X2|X2].
  { intros E; injection E as <- <- <-. destruct (Req_dec x 1) as [->|N].
    - rewrite Req_bool_true by ring. replace ((mx - mn) / (mx - mn)) with 1 by (field; lra). rewrite Rlt_bool_false by lra. reflexivity.
    - assert (0 < (mx - mn) * (x - 1)) by (apply Rmult_lt_0_compat; lra).
      rewrite Req_bool_false by lra. rewrite Req_bool_true by reflexivity.
      replace (mn - (mn + (mx - mn) * (2 - x))) with (- ((mx - mn) * (2 - x))) by ring. rewrite D'. ring. }
  destruct (Rlt_bool_spec x 3) as [X3|X3].
  { intros E; injection E as <- <- <-. rewrite Req_bool_false by lra. rewrite Req_bool_true by reflexivity.
    replace (mn + (mx - mn) * (x - 2) - mn) with ((mx - mn) * (x - 2)) by ring. rewrite D. ring. }
  destruct (Rlt_bool_spec x 4) as [X4|X4].
  { intros E; injection E as <- <- <-. rewrite (Req_bool_false mn) by lra. destruct (Req_dec x 3) as [->|N].
    - rewrite Req_bool_true by ring. replace ((mx - mn) / (mx - mn)) with 1 by (field; lra). ring.
    - assert (0 < (mx - mn) * (x - 3)) by (apply Rmult_lt_0_compat; lra).
      rewrite Req_bool_false by lra. rewrite Req_bool_true by reflexivity.
      replace (mn - (mn + (mx - mn) * (4 - x))) with (- ((mx - mn) * (4 - x))) by ring. rewrite D'. ring. }
  destruct (Rlt_bool_spec x 5) as [X5|X5].
  { intros E; injection E as <- <- <-. assert (0 < (mx - mn) * (5 - x)) by (apply Rmult_lt_0_compat; lra).
    rewrite Req_bool_false by lra. rewrite (Req_bool_false mn) by lra. rewrite Req_bool_true by reflexivity.
    replace (mn + (mx - mn) * (x - 4) - mn) with ((mx - mn) * (x - 4)) by ring. rewrite D. ring. }
  intros E; injection E as <- <- <-. rewrite Req_bool_true by reflexivity.
  replace (mn - (mn + (mx - mn) * (6 - x))) with (- ((mx - mn) * (6 - x))) by ring. rewrite D', Rlt_bool_true by lra. ring.
Qed.

Lemma wheel_range : forall x mx mn, mn <= mx -> 0 <= x < 6 -> 0 <= mn -> mx <= 1 ->
  let '(r, g, b) := wheel x mx mn in unit_r r /\ unit_r g /\ unit_r b.
Proof.
  intros x mx mn L X A B. pose proof (mid_range mn mx x L). pose proof (mid_range mn mx (2 - x) L).
  pose proof (mid_range mn mx (x - 2) L). pose proof (mid_range mn mx (4 - x) L).
  pose proof (mid_range mn mx (x - 4) L). pose proof (mid_range mn mx (6 - x) L).
  unfold wheel, unit_r. bools; lra.
Qed.
Lemma wheel_grey : forall x m, wheel x m m = (m, m, m).
Proof. intros. unfold wheel. rewrite !Rminus_diag_eq, !Rmult_0_l, Rplus_0_r by reflexivity. bools; reflexivity. Qed.

(** ** HSV *)
Lemma hsv_to_rgb_wheel : forall h s v, unit_r s -> unit_r v ->
  hsv_to_rgb RM (h, s, v) = Ok (wheel (6 * fraction h) v (v * (1 - s))).
Proof.
  intros h s v Hs Hv. unfold hsv_to_rgb. rewrite !clamp_id by assumption.
  cbn [sng dbl mixR numR nsub nmul neqb nofZ wid nar flo to_i].
  fold (fraction h). destruct (Req_bool_spec s 0) as [->|Ns].
  { rewrite Rminus_0_r, Rmult_1_r, wheel_grey. reflexivity. }
  pose proof (frac_range h) as F. rewrite Req_bool_false by lra.
  destruct (sixths (6 * fraction h)) as (k & K & Bk); [lra|].
  rewrite (trunc_R k) by (try Lia.lia; lra). unfold int_val, Base.in_int.
  replace (_ && _)%bool with true by (symmetry; apply Bool.andb_true_iff; split; apply Z.leb_le; unfold INT_MIN, INT_MAX; Lia.lia).
  cbn [obind]. rewrite (Rmult_comm (fraction h) 6). set (x := 6 * fraction h) in *. clearbody x.
  assert (K6 : (k = 0 \/ k = 1 \/ k = 2 \/ k = 3 \/ k = 4 \/ k = 5)%Z) by Lia.lia.
  apply f_equal.
  destruct K6 as [-> | [-> | [-> | [-> | [-> | ->]]]]];
  [wheel_at 0%Z|wheel_at 1%Z|wheel_at 2%Z|wheel_at 3%Z|wheel_at 4%Z|wheel_at 5%Z]; apply triple_eq; ring.
Qed.

Lemma rgb_to_hsv_R : forall r g b, unit_r r -> unit_r g -> unit_r b ->
  rgb_to_hsv RM (r, g, b) =
  if Rlt_bool (1 / 10000) (spread r g b) then (hue6 r g b / 6, spread r g b / cmax3 RM r g b, cmax3 RM r g b)
  else (0, 0, cmax3 RM r g b).
Proof. intros r g b Hr Hg Hb. unfold rgb_to_hsv, spread. rewrite !clamp_id by assumption. reflexivity. Qed.

Lemma hsv_round : forall r g b, unit_r r -> unit_r g -> unit_r b -> 1 / 10000 < spread r g b ->
  hsv_to_rgb RM (rgb_to_hsv RM (r, g, b)) = Ok (r, g, b).
Proof.
  intros r g b Hr Hg Hb P. rewrite rgb_to_hsv_R by assumption. rewrite Rlt_bool_true by exact P.
  pose proof (hue6_range r g b ltac:(lra)) as X.
  destruct (cmax3_R r g b) as (M1 & M2 & M3 & M). destruct (cmin3_R r g b) as (N1 & N2 & N3 & N).
  assert (Sp : spread r g b = cmax3 RM r g b - cmin3 RM r g b) by reflexivity. unfold unit_r in *.
  rewrite hsv_to_rgb_wheel; [|apply div_unit; lra|unfold unit_r; lra].
  rewrite frac_id by lra. pose proof (rgb_wheel r g b ltac:(lra)) as W.
  transitivity (Ok (wheel (hue6 r g b) (cmax3 RM r g b) (cmin3 RM r g b))); [|rewrite <- W; reflexivity].
  replace (6 * (hue6 r g b / 6)) with (hue6 r g b) by field.
  assert (E : forall mx mn : R, mx <> 0 -> mx * (1 - (mx - mn) / mx) = mn) by (intros; field; assumption).
  rewrite Sp, E by lra. reflexivity.
Qed.

Lemma hsv_near : forall r g b, unit_r r -> unit_r g -> unit_r b -> spread r g b <= 1 / 10000 ->
  hsv_to_rgb RM (rgb_to_hsv RM (r, g, b)) = Ok (cmax3 RM r g b, cmax3 RM r g b, cmax3 RM r g b).
Proof.
  intros r g b Hr Hg Hb P. rewrite rgb_to_hsv_R by assumption. rewrite Rlt_bool_false by exact P.
  destruct (cmax3_R r g b) as (M1 & M2 & M3 & M).
  rewrite hsv_to_rgb_wheel by (unfold unit_r in *; lra). rewrite Rminus_0_r, Rmult_1_r, wheel_grey. reflexivity.
Qed.

Lemma hsv_round_back : forall h s v, 0 <= h < 1 -> unit_r s -> unit_r v -> 1 / 10000 < v * s ->
  exists c, hsv_to_rgb RM (h, s, v) = Ok c /\ rgb_to_hsv RM c = (h, s, v).
Proof.
  intros h s v Hh Hs Hv P. rewrite hsv_to_rgb_wheel by assumption. rewrite frac_id by exact Hh.
  eexists; split; [reflexivity|]. destruct (wheel _ _ _) as ((r, g), b) eqn:E.
  assert (V : 0 < v). { unfold unit_r in *. destruct (Req_dec v 0) as [->|]; [rewrite Rmult_0_l in P|]; lra. }
  assert (L : v * (1 - s) < v) by lra.
  assert (G : 0 <= v * (1 - s)) by (apply Rmult_le_pos; unfold unit_r in *; lra).
  pose proof (wheel_range (6 * h) v (v * (1 - s)) ltac:(lra) ltac:(lra) G ltac:(unfold unit_r in *; lra)) as U. rewrite E in U. destruct U as (U1 & U2 & U3).
  destruct (wheel_spec (6 * h) v (v * (1 - s)) r g b L ltac:(lra) E) as (A & B & C).
  rewrite rgb_to_hsv_R by assumption. unfold spread. rewrite A, B, C.
  replace (v - v * (1 - s)) with (v * s) by ring. rewrite Rlt_bool_true by exact P.
  apply triple_eq; [field|field; lra|reflexivity].
Qed.

Lemma rgb_hsv_range : forall c, let '(h, s, v) := rgb_to_hsv RM c in 0 <= h < 1 /\ unit_r s /\ unit_r v.
Proof.
  intros ((r, g), b).
  assert (E : rgb_to_hsv RM (r, g, b) = rgb_to_hsv RM (clamp01 RM r, clamp01 RM g, clamp01 RM b)).
  { unfold rgb_to_hsv. rewrite !(clamp_id (clamp01 RM _)) by apply clamp_unit. reflexivity. }
  rewrite E. pose proof (clamp_unit r) as Hr. pose proof (clamp_unit g) as Hg. pose proof (clamp_unit b) as Hb.
  clear E. revert Hr Hg Hb. generalize (clamp01 RM r) (clamp01 RM g) (clamp01 RM b). clear.
  intros r g b Hr Hg Hb. rewrite rgb_to_hsv_R by assumption.
  destruct (cmax3_R r g b) as (M1 & M2 & M3 & M). destruct (cmin3_R r g b) as (N1 & N2 & N3 & N).
  unfold unit_r in *. destruct (Rlt_bool_spec (1 / 10000) (spread r g b)) as [P|P].
  - pose proof (hue6_range r g b ltac:(lra)). split; [lra|]. split; [|lra].
    apply div_unit; unfold spread in *; lra.
  - lra.
Qed.

Lemma hsv_rgb_range : forall c, exists r g b, hsv_to_rgb RM c = Ok (r, g, b) /\ unit_r r /\ unit_r g /\ unit_r b.
Proof.
  intros ((h, s), v).
  assert (E : hsv_to_rgb RM (h, s, v) = hsv_to_rgb RM (h, clamp01 RM s, clamp01 RM v)).
  { unfold hsv_to_rgb. rewrite !(clamp_id (clamp01 RM _)) by apply clamp_unit. reflexivity. }
  rewrite E. pose proof (clamp_unit s) as Hs. pose proof (clamp_unit v) as Hv.
  rewrite hsv_to_rgb_wheel by assumption. pose proof (frac_range h) as Fr.
  assert (G : 0 <= clamp01 RM v * (1 - clamp01 RM s)) by (apply Rmult_le_pos; unfold unit_r in *; lra).
  assert (0 <= clamp01 RM v * clamp01 RM s) by (apply Rmult_le_pos; unfold unit_r in *; lra).
  pose proof (wheel_range (6 * fraction h) (clamp01 RM v) (clamp01 RM v * (1 - clamp01 RM s))) as U.
  destruct (wheel _ _ _) as ((r, g), b). exists r, g, b. split; [reflexivity|]. unfold unit_r in *. apply U; lra.
Qed.

(** ** HSL *)
Lemma rgb_to_hsl_R : forall r g b, unit_r r -> unit_r g -> unit_r b -> 0 < spread r g b ->
  let mx := cmax3 RM r g b in let mn := cmin3 RM r g b in let l := (mx + mn) / 2 in
  rgb_to_hsl RM (r, g, b) =
  (hue6 r g b / 6, (if Rle_bool l (1 / 2) then (mx - mn) / (mx + mn) else (mx - mn) / (2 - mx - mn)), l).
Proof.
  intros r g b Hr Hg Hb P. cbv zeta. unfold rgb_to_hsl. rewrite !clamp_id by assumption.
  cbn [sng dbl mixR numR nadd nsub nmul ndiv neqb nle nlt nofZ wid nar dec].
  unfold hue6, spread in *. set (mx := cmax3 RM r g b) in *. set (mn := cmin3 RM r g b) in *.
  rewrite !(Req_bool_false mx mn) by lra. rewrite (Req_bool_false (mx - mn) 0) by lra.
  apply triple_eq; try reflexivity.
  destruct (Req_bool_spec r mx) as [E|E].
  - destruct (Rlt_bool_spec ((g - b) / (mx - mn)) 0) as [L|L].
    + rewrite Rlt_bool_true by lra. field. lra.
    + rewrite Rlt_bool_false by lra. reflexivity.
  - assert (Hx : forall t, 0 <= t -> (if Rlt_bool (t / 6) 0 then t / 6 + 1 else t / 6) = t / 6).
    { intros t Ht. rewrite Rlt_bool_false by lra. reflexivity. }
    pose proof (hue6_range r g b ltac:(unfold spread; fold mx mn; lra)) as Rg. unfold hue6, spread in Rg. fold mx mn in Rg.
    rewrite (Req_bool_false r mx E) in Rg. cbv zeta in Rg.
    destruct (Req_bool g mx); [apply Hx; lra|]. destruct (Req_bool b mx); [apply Hx; lra|]. apply Hx. lra.
Qed.

Lemma hsl_value_id : forall n1 n2 x, 0 <= x <= 6 ->
  hsl_value RM n1 n2 x = if Rlt_bool x 1 then n1 + (n2 - n1) * x else if Rlt_bool x 3 then n2
    else if Rlt_bool x 4 then n1 + (n2 - n1) * (4 - x) else n1.
Proof.
  intros n1 n2 x X. unfold hsl_value. cbn [sng dbl mixR numR nadd nsub nmul nlt nofZ].
  rewrite (Rlt_bool_false 6 x) by lra. rewrite (Rlt_bool_false x 0) by lra. reflexivity.
Qed.
Lemma hsl_value_up : forall n1 n2 x, 6 < x <= 12 -> hsl_value RM n1 n2 x = hsl_value RM n1 n2 (x - 6).
Proof.
  intros n1 n2 x X. unfold hsl_value. cbn [sng dbl mixR numR nadd nsub nmul nlt nofZ].
  rewrite (Rlt_bool_true 6 x) by lra. rewrite (Rlt_bool_false 6 (x - 6)) by lra. rewrite (Rlt_bool_false (x - 6) 0) by lra. reflexivity.
Qed.
Lemma hsl_value_down : forall n1 n2 x, -6 <= x < 0 -> hsl_value RM n1 n2 x = hsl_value RM n1 n2 (x + 6).
Proof.
  intros n1 n2 x X. unfold hsl_value. cbn [sng dbl mixR numR nadd nsub nmul nlt nofZ].
  rewrite (Rlt_bool_false 6 x) by lra. rewrite (Rlt_bool_true x 0) by lra.
  rewrite (Rlt_bool_false 6 (x + 6)) by lra. rewrite (Rlt_bool_false (x + 6) 0) by lra. reflexivity.
Qed.

Definition hsl_top (s l : R) : R := if Rle_bool l (1 / 2) then l * (1 + s) else l + s - l * s.

Lemma hsl_to_rgb_wheel : forall h s l, unit_r s -> unit_r l ->
  hsl_to_rgb RM (h, s, l) = wheel (6 * fraction h) (hsl_top s l) (2 * l - hsl_top s l).
Proof.
  intros h s l Hs Hl. unfold hsl_to_rgb. rewrite !clamp_id by assumption.
  transitivity (if Req_bool s 0 then (l, l, l) else
    (hsl_value RM (2 * l - hsl_top s l) (hsl_top s l) (fraction h * 6 + 2),
     hsl_value RM (2 * l - hsl_top s l) (hsl_top s l) (fraction h * 6),
     hsl_value RM (2 * l - hsl_top s l) (hsl_top s l) (fraction h * 6 - 2))); [reflexivity|].
  destruct (Req_bool_spec s 0) as [->|Ns].
  { assert (E : hsl_top 0 l = l) by (unfold hsl_top; destruct (Rle_bool l (1 / 2)); ring).
    rewrite E. replace (2 * l - l) with l by ring. rewrite wheel_grey. reflexivity. }
  pose proof (frac_range h) as F. rewrite (Rmult_comm (fraction h) 6).
  destruct (sixths (6 * fraction h)) as (k & K & Bk); [lra|]. set (x := 6 * fraction h) in *. clearbody x.
  set (m2 := hsl_top s l). set (m1 := 2 * l - m2). clearbody m2. clearbody m1.
  assert (K6 : (k = 0 \/ k = 1 \/ k = 2 \/ k = 3 \/ k = 4 \/ k = 5)%Z) by Lia.lia.
  destruct K6 as [-> | [-> | [-> | [-> | [-> | ->]]]]];
  [wheel_at 0%Z|wheel_at 1%Z|wheel_at 2%Z|wheel_at 3%Z|wheel_at 4%Z|wheel_at 5%Z]; apply triple_eq;
  cbv [hsl_value sng dbl mixR numR nadd nsub nmul nlt nofZ] in *;
  repeat match goal with
  | |- context [Rlt_bool 6 ?b] => destruct (Rlt_bool_spec 6 b); try (exfalso; lra)
  | |- context [Rlt_bool ?a 0] => destruct (Rlt_bool_spec a 0); try (exfalso; lra)
  | |- context [Rlt_bool ?a ?b] => destruct (Rlt_bool_spec a b); try (exfalso; lra)
  end;
  try ring; (assert (x = 4) by lra; subst x; ring).
Qed.

Lemma spread_grey : forall r g b, spread r g b = 0 -> r = cmax3 RM r g b /\ g = cmax3 RM r g b /\ b = cmax3 RM r g b.
Proof.
  intros r g b. unfold spread. destruct (cmax3_R r g b) as (M1 & M2 & M3 & _). destruct (cmin3_R r g b) as (N1 & N2 & N3 & _). lra.
Qed.

Lemma rgb_to_hsl_grey : forall r g b, unit_r r -> unit_r g -> unit_r b -> spread r g b = 0 ->
  rgb_to_hsl RM (r, g, b) = (0, 0, r).
Proof.
  intros r g b Hr Hg Hb P. destruct (spread_grey r g b P) as (A & B & C). unfold spread in P.
  unfold rgb_to_hsl. rewrite !clamp_id by assumption.
  cbn [sng dbl mixR numR nadd nsub nmul ndiv neqb nle nlt nofZ wid nar dec].
  rewrite Req_bool_true by lra. apply triple_eq; try reflexivity. lra.
Qed.

Lemma hsl_round : forall r g b, unit_r r -> unit_r g -> unit_r b ->
  hsl_to_rgb RM (rgb_to_hsl RM (r, g, b)) = (r, g, b).
Proof.
  intros r g b Hr Hg Hb. pose proof (spread_nonneg r g b) as SN.
  destruct (Req_dec (spread r g b) 0) as [P|P].
  - rewrite rgb_to_hsl_grey by assumption. destruct (spread_grey r g b P) as (A & B & C).
    rewrite hsl_to_rgb_wheel by (try assumption; unfold unit_r; lra).
    assert (T : hsl_top 0 r = r) by (unfold hsl_top; destruct (Rle_bool r (1 / 2)); ring).
    rewrite T. replace (2 * r - r) with r by ring. rewrite wheel_grey. apply triple_eq; lra.
  - assert (P' : 0 < spread r g b) by lra. rewrite rgb_to_hsl_R by assumption.
    pose proof (rgb_wheel r g b P') as W. pose proof (hue6_range r g b P') as X. unfold spread in P'.
    destruct (cmax3_R r g b) as (M1 & M2 & M3 & M). destruct (cmin3_R r g b) as (N1 & N2 & N3 & N). unfold unit_r in *.
    transitivity (wheel (hue6 r g b) (cmax3 RM r g b) (cmin3 RM r g b)); [|exact (eq_sym W)]. clear W. cbv zeta. revert P' M1 M2 M3 M N1 N2 N3 N X.
    generalize (cmax3 RM r g b : R) as mx. generalize (cmin3 RM r g b : R) as mn. generalize (hue6 r g b) as x. intros x mn mx P' M1 M2 M3 M N1 N2 N3 N X.
    set (s := if Rle_bool ((mx + mn) / 2) (1 / 2) then (mx - mn) / (mx + mn) else (mx - mn) / (2 - mx - mn)).
    assert (S : unit_r s /\ hsl_top s ((mx + mn) / 2) = mx).
    { unfold s, hsl_top. destruct (Rle_bool_spec ((mx + mn) / 2) (1 / 2)) as [L|L].
      - split; [apply div_unit; lra|field; lra].
      - split; [apply div_unit; lra|field; lra]. }
    destruct S as (S1 & S2). rewrite hsl_to_rgb_wheel by (try assumption; unfold unit_r; lra).
    rewrite S2, frac_id by lra. replace (6 * (x / 6)) with x by field. replace (2 * ((mx + mn) / 2) - mx) with mn by field. reflexivity.
Qed.

Lemma hsl_top_range : forall s l, unit_r s -> unit_r l -> l <= hsl_top s l <= 1 /\ 0 <= 2 * l - hsl_top s l.
Proof.
  intros s l Hs Hl. unfold hsl_top, unit_r in *.
  assert (0 <= l * s) by (apply Rmult_le_pos; lra). assert (0 <= (1 - l) * s) by (apply Rmult_le_pos; lra).
  assert (0 <= l * (1 - s)) by (apply Rmult_le_pos; lra). assert (0 <= (1 - l) * (1 - s)) by (apply Rmult_le_pos; lra).
  destruct (Rle_bool_spec l (1 / 2)); lra.
Qed.

Lemma hsl_rgb_range : forall c, let '(r, g, b) := hsl_to_rgb RM c in unit_r r /\ unit_r g /\ unit_r b.
Proof.
  intros ((h, s), l).
  assert (E : hsl_to_rgb RM (h, s, l) = hsl_to_rgb RM (h, clamp01 RM s, clamp01 RM l)).
  { unfold hsl_to_rgb. rewrite !(clamp_id (clamp01 RM _)) by apply clamp_unit. reflexivity. }
  rewrite E. pose proof (clamp_unit s) as Hs. pose proof (clamp_unit l) as Hl. rewrite hsl_to_rgb_wheel by assumption.
  pose proof (frac_range h). pose proof (hsl_top_range _ _ Hs Hl). apply wheel_range; lra.
Qed.

Lemma rgb_hsl_range : forall c, let '(h, s, l) := rgb_to_hsl RM c in 0 <= h < 1 /\ unit_r s /\ unit_r l.
Proof.
  intros ((r, g), b).
  assert (E : rgb_to_hsl RM (r, g, b) = rgb_to_hsl RM (clamp01 RM r, clamp01 RM g, clamp01 RM b)).
  { unfold rgb_to_hsl. rewrite !(clamp_id (clamp01 RM _)) by apply clamp_unit. reflexivity. }
  rewrite E. pose proof (clamp_unit r) as Hr. pose proof (clamp_unit g) as Hg. pose proof (clamp_unit b) as Hb.
  clear E. revert Hr Hg Hb. generalize (clamp01 RM r) (clamp01 RM g) (clamp01 RM b). clear.
  intros r g b Hr Hg Hb. pose proof (spread_nonneg r g b) as SN.
  destruct (Req_dec (spread r g b) 0) as [P|P].
  - rewrite rgb_to_hsl_grey by assumption. unfold unit_r in *. lra.
  - assert (P' : 0 < spread r g b) by lra. rewrite rgb_to_hsl_R by assumption.
    pose proof (hue6_range r g b P') as X. unfold spread in P'.
    destruct (cmax3_R r g b) as (M1 & M2 & M3 & M). destruct (cmin3_R r g b) as (N1 & N2 & N3 & N). unfold unit_r in *.
    split; [lra|]. split; [|lra]. destruct (Rle_bool_spec ((cmax3 RM r g b + cmin3 RM r g b) / 2) (1 / 2)); apply div_unit; lra.
Qed.

Lemma hsl_round_back : forall h s l, 0 <= h < 1 -> 0 < s <= 1 -> 0 < l < 1 ->
  rgb_to_hsl RM (hsl_to_rgb RM (h, s, l)) = (h, s, l).
Proof.
  intros h s l Hh Hs Hl.
  assert (Us : unit_r s) by (unfold unit_r; lra). assert (Ul : unit_r l) by (unfold unit_r; lra).
  pose proof (hsl_top_range s l Us Ul) as T. rewrite hsl_to_rgb_wheel by assumption. rewrite frac_id by lra.
  assert (D : 2 * hsl_top s l - 2 * l = 2 * (if Rle_bool l (1 / 2) then l * s else (1 - l) * s)).
  { unfold hsl_top. destruct (Rle_bool l (1 / 2)); ring. }
  assert (0 < l * s) by (apply Rmult_lt_0_compat; lra). assert (0 < (1 - l) * s) by (apply Rmult_lt_0_compat; lra).
  destruct (wheel (6 * h) (hsl_top s l) (2 * l - hsl_top s l)) as ((r, g), b) eqn:E.
  assert (L : 2 * l - hsl_top s l < hsl_top s l) by (destruct (Rle_bool l (1 / 2)); lra).
  pose proof (wheel_range (6 * h) (hsl_top s l) (2 * l - hsl_top s l) ltac:(lra) ltac:(lra) ltac:(lra) ltac:(lra)) as U.
  rewrite E in U. destruct U as (U1 & U2 & U3).
  destruct (wheel_spec (6 * h) (hsl_top s l) (2 * l - hsl_top s l) r g b L ltac:(lra) E) as (A & B & C).
  rewrite rgb_to_hsl_R; try assumption; [|unfold spread; rewrite B, C; lra].
  cbv zeta. rewrite A, B, C. apply triple_eq; [field| |field].
  replace ((hsl_top s l + (2 * l - hsl_top s l)) / 2) with l by field.
  destruct (Rle_bool_spec l (1 / 2)) as [Q|Q]; replace (hsl_top s l - (2 * l - hsl_top s l)) with (2 * hsl_top s l - 2 * l) by ring; rewrite D.
  - field. lra. - field. lra.
Qed.
