(** The HCY conversions and the angle helpers of Color.v in exact arithmetic. *)
From Verif Require Import Base F32 Arith Color ColorProofs.
From Coq Require Import Reals Lra.
From Flocq Require Import Core.Raux.
Local Open Scope R_scope.

(** the luma the code computes; the weights add up to 1.0036 *)
Definition luma (c : R * R * R) : R := let '(r, g, b) := c in 2162 / 10000 * r + 7152 / 10000 * g + 722 / 10000 * b.
(** the luma of the pure colour of a hue *)
Definition tint (x : R) : R := luma (wheel x 1 0).

Lemma luma_wheel : forall x mx mn, luma (wheel x mx mn) = 10036 / 10000 * mn + (mx - mn) * tint x.
Proof. intros. unfold tint, wheel. bools; unfold luma; field. Qed.
Lemma tint_range : forall x, 0 <= x < 6 -> 722 / 10000 <= tint x <= 9314 / 10000.
Proof. intros x X. unfold tint, wheel. bools; unfold luma; lra. Qed.

Definition hcy_max (x c y : R) : R :=
  let t := tint x in if Rle_bool y t then y + y * c * (1 - t) / t else y + (1 - y) * c.
Definition hcy_min (x c y : R) : R :=
  let t := tint x in if Rle_bool y t then y - y * c else y - (1 - y) * c * t / (1 - t).

Lemma hcy_to_rgb_wheel : forall h c y, unit_r c -> unit_r y ->
  hcy_to_rgb RM (h, c, y) = wheel (6 * fraction h) (hcy_max (6 * fraction h) c y) (hcy_min (6 * fraction h) c y).
Proof.
  intros h c y Hc Hy. unfold hcy_to_rgb. rewrite !clamp_id by assumption.
  pose proof (frac_range h) as F.
  transitivity (
    let x : R := (fraction h - IZR (Ztrunc (fraction h))) * 6 in
    let '(th, tm) :=
      if Rlt_bool x 1 then (x, 2162 / 10000 + 7152 / 10000 * x)
      else if Rlt_bool x 2 then (2 - x, 7152 / 10000 + 2162 / 10000 * (2 - x))
      else if Rlt_bool x 3 then (x - 2, 7152 / 10000 + 722 / 10000 * (x - 2))
      else if Rlt_bool x 4 then (4 - x, 722 / 10000 + 7152 / 10000 * (4 - x))
      else if Rlt_bool x 5 then (x - 4, 722 / 10000 + 2162 / 10000 * (x - 4))
      else (6 - x, 2162 / 10000 + 722 / 10000 * (6 - x)) in
    let '(p, o, n) :=
      if Rle_bool y tm then (y + y * c * (1 - tm) / tm, y + y * c * (th - tm) / tm, y - y * c)
      else (y + (1 - y) * c, y + (1 - y) * c * (th - tm) / (1 - tm), y - (1 - y) * c * tm / (1 - tm)) in
    if Rlt_bool x 1 then (p, o, n)
    else if Rlt_bool x 2 then (o, p, n)
    else if Rlt_bool x 3 then (n, p, o)
    else if Rlt_bool x 4 then (n, o, p)
    else if Rlt_bool x 5 then (o, n, p)
    else (p, n, o)); [reflexivity|].
  rewrite (trunc_R 0 (fraction h)) by (try Lia.lia; lra). cbv zeta.
  replace ((fraction h - 0) * 6) with (6 * fraction h) by ring.
  assert (X : 0 <= 6 * fraction h < 6) by lra. set (x := 6 * fraction h) in *. clearbody x.
  pose proof (tint_range x X) as T.
  destruct (sixths x X) as (k & K & Bk).
  assert (K6 : (k = 0 \/ k = 1 \/ k = 2 \/ k = 3 \/ k = 4 \/ k = 5)%Z) by Lia.lia.
  destruct K6 as [-> | [-> | [-> | [-> | [-> | ->]]]]];
  repeat first [rewrite (Rlt_bool_true x) by lra|rewrite (Rlt_bool_false x) by lra];
  match goal with |- context [Rle_bool y ?tm] => assert (Et : tm = tint x) by
    (unfold tint; first [wheel_at 0%Z|wheel_at 1%Z|wheel_at 2%Z|wheel_at 3%Z|wheel_at 4%Z|wheel_at 5%Z]; unfold luma; field) end;
  rewrite Et; clear Et; unfold hcy_max, hcy_min in *; cbv zeta; destruct (Rle_bool_spec y (tint x)) as [L|L];
  first [wheel_at 0%Z|wheel_at 1%Z|wheel_at 2%Z|wheel_at 3%Z|wheel_at 4%Z|wheel_at 5%Z];
  apply triple_eq; try reflexivity; field; lra.
Qed.

Lemma hcy_range : forall x c y, 0 <= x < 6 -> unit_r c -> unit_r y ->
  0 <= hcy_min x c y /\ hcy_min x c y <= y <= hcy_max x c y /\ hcy_max x c y <= 1.
Proof.
  intros x c y X Hc Hy. pose proof (tint_range x X) as T. unfold hcy_min, hcy_max. cbv zeta. set (t := tint x) in *. clearbody t.
  unfold unit_r in *. destruct (Rle_bool_spec y t) as [L|L].
  - assert (A : 0 <= y * c) by (apply Rmult_le_pos; lra). assert (B : 0 <= y * (1 - c)) by (apply Rmult_le_pos; lra).
    assert (C : 0 <= y * c * (1 - t) / t <= 1 - y).
    { replace (y * c * (1 - t) / t) with (y * c / t * (1 - t)) by (field; lra).
      assert (0 <= y * c / t <= 1) by (apply div_unit; lra).
      split; [apply Rmult_le_pos; lra|].
      replace (y * c / t * (1 - t)) with (y * c / t - y * c) by (field; lra).
      assert (y * c / t <= y / t). { unfold Rdiv. apply Rmult_le_compat_r; [apply Rlt_le, Rinv_0_lt_compat; lra|lra]. }
      assert (D : y * c / t - y * c = c * (y / t - y)) by (field; lra). rewrite D.
      assert (0 <= y / t <= 1) by (apply div_unit; lra).
      assert (0 <= y / t - y). { replace (y / t - y) with (y * ((1 - t) / t)) by (field; lra). apply Rmult_le_pos; [lra|]. apply Rlt_le, div_pos; lra. }
      apply Rle_trans with (1 * (y / t - y)); [apply Rmult_le_compat_r; lra|lra]. }
    lra.
  - assert (A : 0 <= (1 - y) * c) by (apply Rmult_le_pos; lra). assert (B : 0 <= (1 - y) * (1 - c)) by (apply Rmult_le_pos; lra).
    assert (C : 0 <= (1 - y) * c * t / (1 - t) <= y).
    { replace ((1 - y) * c * t / (1 - t)) with ((1 - y) * c / (1 - t) * t) by (field; lra).
      assert (0 <= (1 - y) * c / (1 - t) <= 1) by (apply div_unit; lra).
      split; [apply Rmult_le_pos; lra|]. apply Rle_trans with (1 * t); [apply Rmult_le_compat_r; lra|lra]. }
    lra.
Qed.

Lemma hcy_grey : forall x y, 0 <= x < 6 -> hcy_max x 0 y = y /\ hcy_min x 0 y = y.
Proof.
  intros x y X. pose proof (tint_range x X). unfold hcy_max, hcy_min. cbv zeta. destruct (Rle_bool y (tint x)); split; field; lra.
Qed.

Lemma hcy_rgb_range : forall c, let '(r, g, b) := hcy_to_rgb RM c in unit_r r /\ unit_r g /\ unit_r b.
Proof.
  intros ((h, c), y).
  assert (E : hcy_to_rgb RM (h, c, y) = hcy_to_rgb RM (h, clamp01 RM c, clamp01 RM y)).
  { unfold hcy_to_rgb. rewrite !(clamp_id (clamp01 RM _)) by apply clamp_unit. reflexivity. }
  rewrite E. pose proof (clamp_unit c) as Hc. pose proof (clamp_unit y) as Hy. rewrite hcy_to_rgb_wheel by assumption.
  pose proof (frac_range h) as F. assert (X : 0 <= 6 * fraction h < 6) by lra.
  pose proof (hcy_range _ _ _ X Hc Hy). apply wheel_range; lra.
Qed.

Lemma cmax_R : forall a b, cmax RM a b = Rmax a b.
Proof. intros a b. unfold cmax. cbn [sng mixR numR nlt]. unfold Rmax. destruct (Rlt_bool_spec b a); destruct (Rle_dec a b); lra. Qed.

Lemma rgb_to_hcy_R : forall r g b, 0 < spread r g b ->
  let y := luma (r, g, b) in let p := cmax3 RM r g b in let n := cmin3 RM r g b in
  rgb_to_hcy RM (r, g, b) = (hue6 r g b / 6, Rmax ((y - n) / y) ((p - y) / (1 - y)), y).
Proof.
  intros r g b P. cbv zeta. unfold rgb_to_hcy. rewrite cmax_R. pose proof (hue6_range r g b P) as Hx.
  unfold HCY_RED, HCY_GREEN, HCY_BLUE. cbn [sng dbl mixR numR nadd nsub nmul ndiv neqb nle nlt nofZ wid nar dec flo fmod1].
  unfold spread in P. rewrite (Req_bool_false (cmin3 RM r g b)) by lra.
  assert (NG : (Req_bool r g && Req_bool g b)%bool = false).
  { destruct (cmax3_R r g b) as (_ & _ & _ & M). destruct (cmin3_R r g b) as (_ & _ & _ & N).
    destruct (Req_bool_spec r g); [|reflexivity]. destruct (Req_bool_spec g b); [exfalso; lra|reflexivity]. }
  rewrite NG.
  match goal with |- (?h6 / 6 - IZR (Ztrunc (?h6 / 6)), _, _) = _ => assert (E : h6 = hue6 r g b) end.
  { unfold hue6, spread. destruct (Req_bool_spec (cmax3 RM r g b) r) as [A|A].
    - rewrite (Req_bool_true r) by (symmetry; exact A). reflexivity.
    - rewrite (Req_bool_false r) by (intros Q; apply A; symmetry; exact Q).
      destruct (Req_bool_spec (cmax3 RM r g b) g) as [B|B].
      + rewrite (Req_bool_true g) by (symmetry; exact B). apply Rplus_comm.
      + rewrite (Req_bool_false g) by (intros Q; apply B; symmetry; exact Q).
        destruct (cmax3_R r g b) as (_ & _ & _ & [M|[M|M]]); [contradiction|contradiction|].
        rewrite (Req_bool_true b) by (symmetry; exact M). apply Rplus_comm. }
  rewrite E. rewrite (trunc_R 0) by (try Lia.lia; lra). apply triple_eq; [ring|reflexivity|reflexivity].
Qed.

Lemma rgb_to_hcy_grey : forall m, rgb_to_hcy RM (m, m, m) = (0, 0, luma (m, m, m)).
Proof.
  intros m. unfold rgb_to_hcy. unfold HCY_RED, HCY_GREEN, HCY_BLUE.
  assert (A : cmax3 RM m m m = m) by (apply cmax3_is; lra). assert (B : cmin3 RM m m m = m) by (apply cmin3_is; lra).
  rewrite A, B. cbn [sng dbl mixR numR nadd nsub nmul ndiv neqb nle nlt nofZ wid nar dec flo fmod1].
  rewrite !Req_bool_true by reflexivity. cbn [andb]. rewrite (trunc_R 0) by (try Lia.lia; lra).
  apply triple_eq; [lra|reflexivity|reflexivity].
Qed.

(** *** How far the round trip is off *)
Definition e36 : R := 36 / 10000.

Lemma hcy_trip : forall n p t, 0 <= n -> n < p -> p <= 1 -> 722 / 10000 <= t <= 9314 / 10000 ->
  let y := 10036 / 10000 * n + (p - n) * t in y < 1 ->
  let c := Rmax ((y - n) / y) ((p - y) / (1 - y)) in
  unit_r c /\ 0 < y /\
  (y <= t -> y - y * c = n /\ y + y * c * (1 - t) / t = p + e36 * n / t) /\
  (t < y -> p <= y + (1 - y) * c <= p + e36 * n / t /\ n <= y - (1 - y) * c * t / (1 - t) <= n + e36 * n / (1 - t)).
Proof.
  intros n p t Hn Hp P1 T y Hy. cbv zeta.
  assert (D0 : 0 < (p - n) * t) by (apply Rmult_lt_0_compat; lra).
  assert (Y0 : 0 < y) by (unfold y; lra).
  set (c1 := (y - n) / y). set (c2 := (p - y) / (1 - y)).
  assert (C1 : 0 <= c1 <= 1) by (apply div_unit; unfold y; lra).
  assert (C2 : c2 <= 1).
  { unfold c2. destruct (Rle_lt_dec (p - y) 0) as [N|N].
    - apply Rle_trans with 0; [|lra]. assert (0 <= (y - p) / (1 - y)). { apply Rmult_le_pos; [lra|]. apply Rlt_le, Rinv_0_lt_compat; lra. }
      replace ((p - y) / (1 - y)) with (- ((y - p) / (1 - y))) by (field; lra). lra.
    - apply div_unit; lra. }
  assert (E1 : y * c1 = y - n) by (unfold c1; field; lra).
  assert (E2 : (1 - y) * c2 = p - y) by (unfold c2; field; lra).
  clearbody c1 c2.
  assert (M : Rmax c1 c2 = c1 /\ c2 <= c1 \/ Rmax c1 c2 = c2 /\ c1 <= c2).
  { unfold Rmax. destruct (Rle_dec c1 c2); [right|left]; lra. }
  split; [unfold unit_r; destruct M as [[-> M]|[-> M]]; lra|]. split; [exact Y0|]. split.
  - intros L.
    assert (M1 : Rmax c1 c2 = c1).
    { destruct M as [[E _]|[E Q]]; [exact E|]. rewrite E.
      (* y (1 - y) c1 >= y (1 - y) c2 as y - n >= (p - n) y *)
      assert (K : y * (1 - y) * c2 <= y * (1 - y) * c1).
      { replace (y * (1 - y) * c2) with (y * ((1 - y) * c2)) by ring. rewrite E2.
        replace (y * (1 - y) * c1) with ((1 - y) * (y * c1)) by ring. rewrite E1.
        assert ((p - n) * y <= (p - n) * t) by (apply Rmult_le_compat_l; lra). unfold y in *. nra. }
      apply Rle_antisym; [|exact Q]. apply Rmult_le_reg_l with (y * (1 - y)); [apply Rmult_lt_0_compat; lra|exact K]. }
    rewrite M1, E1. split; [ring|]. unfold y, e36. field. lra.
  - intros L.
    assert (F1 : (1 - y) * c1 <= (y - n) * (1 - t) / t).
    { apply Rmult_le_reg_l with (y * t); [apply Rmult_lt_0_compat; lra|].
      replace (y * t * ((1 - y) * c1)) with (t * (1 - y) * (y * c1)) by ring. rewrite E1.
      replace (y * t * ((y - n) * (1 - t) / t)) with (y * (1 - t) * (y - n)) by (field; lra).
      apply Rmult_le_compat_r; [unfold y; lra|]. nra. }
    assert (F2 : (1 - y) * c1 * t / (1 - t) <= y - n).
    { apply Rmult_le_reg_l with ((1 - t) / t); [apply div_pos; lra|].
      replace ((1 - t) / t * ((1 - y) * c1 * t / (1 - t))) with ((1 - y) * c1) by (field; lra).
      replace ((1 - t) / t * (y - n)) with ((y - n) * (1 - t) / t) by (field; lra). exact F1. }
    assert (G1 : y + (y - n) * (1 - t) / t = p + e36 * n / t) by (unfold y, e36; field; lra).
    assert (G2 : y - (p - y) * t / (1 - t) = n + e36 * n / (1 - t)) by (unfold y, e36; field; lra).
    assert (H0 : 0 <= e36 * n / t). { apply Rmult_le_pos; [unfold e36; lra|]. apply Rlt_le, Rinv_0_lt_compat; lra. }
    assert (H1 : 0 <= e36 * n / (1 - t)). { apply Rmult_le_pos; [unfold e36; lra|]. apply Rlt_le, Rinv_0_lt_compat; lra. }
    destruct M as [[-> M]|[-> M]].
    + assert ((1 - y) * c2 <= (1 - y) * c1) by (apply Rmult_le_compat_l; lra).
      assert ((p - y) * t / (1 - t) <= (1 - y) * c1 * t / (1 - t)).
      { unfold Rdiv. apply Rmult_le_compat_r; [apply Rlt_le, Rinv_0_lt_compat; lra|]. apply Rmult_le_compat_r; lra. }
      lra.
    + rewrite E2. lra.
Qed.

Definition near3 (d : R) (c c' : R * R * R) : Prop :=
  let '(r, g, b) := c in let '(r', g', b') := c' in Rabs (r' - r) <= d /\ Rabs (g' - g) <= d /\ Rabs (b' - b) <= d.

Lemma wheel_near : forall x p n p' n' d, 0 <= x < 6 -> Rabs (p' - p) <= d -> Rabs (n' - n) <= d ->
  near3 d (wheel x p n) (wheel x p' n').
Proof.
  intros x p n p' n' d X A B. apply Rabs_def2_le in A || idtac.
  assert (MID : forall t, 0 <= t <= 1 -> Rabs (n' + (p' - n') * t - (n + (p - n) * t)) <= d).
  { intros t T. replace (n' + (p' - n') * t - (n + (p - n) * t)) with ((p' - p) * t + (n' - n) * (1 - t)) by ring.
    eapply Rle_trans; [apply Rabs_triang|]. rewrite !Rabs_mult, (Rabs_pos_eq t), (Rabs_pos_eq (1 - t)) by lra.
    apply Rle_trans with (d * t + d * (1 - t)); [|lra]. apply Rplus_le_compat; apply Rmult_le_compat_r; lra. }
  unfold wheel, near3. bools; repeat split; first [assumption|apply MID; lra].
Qed.

Lemma hcy_round_near : forall r g b, unit_r r -> unit_r g -> unit_r b -> luma (r, g, b) <> 1 ->
  near3 (1 / 20) (r, g, b) (hcy_to_rgb RM (rgb_to_hcy RM (r, g, b))).
Proof.
  intros r g b Hr Hg Hb Hy. pose proof (spread_nonneg r g b) as SN.
  destruct (Req_dec (spread r g b) 0) as [P|P].
  - destruct (spread_grey r g b P) as (A & B & C). assert (g = r) by lra. assert (b = r) by lra. subst g b. clear A B C P SN.
    rewrite rgb_to_hcy_grey.
    assert (E : hcy_to_rgb RM (0, 0, luma (r, r, r)) = hcy_to_rgb RM (0, 0, clamp01 RM (luma (r, r, r)))).
    { unfold hcy_to_rgb. rewrite !(clamp_id (clamp01 RM _)) by apply clamp_unit. reflexivity. }
    change (near3 (1 / 20) (r, r, r) (hcy_to_rgb RM (0, 0, luma (r, r, r)))). rewrite E. pose proof (clamp_unit (luma (r, r, r))) as U. rewrite hcy_to_rgb_wheel by (try exact U; unfold unit_r; lra).
    assert (Z0 : fraction 0 = 0) by (apply frac_id; lra). rewrite Z0.
    destruct (hcy_grey (6 * 0) (clamp01 RM (luma (r, r, r))) ltac:(lra)) as (G1 & G2). rewrite G1, G2.
    assert (K : Rabs (clamp01 RM (luma (r, r, r)) - r) <= 1 / 20).
    { unfold luma, unit_r in *. unfold clamp01. cbn [sng mixR numR nlt nofZ]. bools; apply Rabs_le; lra. }
    rewrite wheel_grey. unfold near3. auto.
  - assert (P' : 0 < spread r g b) by lra. clear P SN. rewrite rgb_to_hcy_R by exact P'. cbv zeta.
    pose proof (rgb_wheel r g b P') as W. pose proof (hue6_range r g b P') as X. unfold spread in P'.
    destruct (cmax3_R r g b) as (M1 & M2 & M3 & M). destruct (cmin3_R r g b) as (N1 & N2 & N3 & N).
    revert W X P' M1 M2 M3 M N1 N2 N3 N. generalize (cmax3 RM r g b : R) as p. generalize (cmin3 RM r g b : R) as n. generalize (hue6 r g b) as x.
    intros x n p W X P' M1 M2 M3 M N1 N2 N3 N. rewrite W in *. clear W.
    rewrite luma_wheel in *. pose proof (tint_range x X) as T.
    assert (Hn : 0 <= n) by (unfold unit_r in *; lra). assert (Hp : p <= 1) by (unfold unit_r in *; lra).
    set (t := tint x) in *. set (y := 10036 / 10000 * n + (p - n) * t) in *.
    assert (FX : 6 * fraction (x / 6) = x) by (rewrite frac_id by lra; field).
    destruct (Rlt_le_dec y 1) as [Y|Y].
    + destruct (hcy_trip n p t Hn ltac:(lra) Hp T Y) as (C & Y0 & LO & HI). fold y in C, LO, HI, Y0.
      set (c := Rmax _ _) in *. clearbody c.
      assert (Uy : unit_r y) by (unfold unit_r; lra).
      rewrite hcy_to_rgb_wheel, FX by assumption. pose proof (hcy_range x c y X C Uy) as G.
      assert (I1 : e36 * n / t <= 1 / 20).
      { apply Rmult_le_reg_r with t; [lra|]. replace (e36 * n / t * t) with (e36 * n) by (field; lra). unfold e36. lra. }
      assert (I2 : e36 * n / (1 - t) <= 36 / 686 * n).
      { apply Rmult_le_reg_r with (1 - t); [lra|]. replace (e36 * n / (1 - t) * (1 - t)) with (e36 * n) by (field; lra).
        assert (n * (686 / 10000) <= n * (1 - t)) by (apply Rmult_le_compat_l; lra). unfold e36. lra. }
      assert (I0 : 0 <= e36 * n / t). { apply Rmult_le_pos; [unfold e36; lra|]. apply Rlt_le, Rinv_0_lt_compat; lra. }
      revert G. unfold hcy_max, hcy_min. cbv zeta. fold t. intros G.
      destruct (Rle_bool_spec y t) as [L|L].
      * destruct (LO L) as (A & B). rewrite A, B in *. apply wheel_near; [exact X| |]; apply Rabs_le; lra.
      * destruct (HI L) as (A & B). apply wheel_near; [exact X| |]; apply Rabs_le; lra.
    + assert (Y' : 1 < y) by lra. set (c := Rmax _ _). 
      assert (E : hcy_to_rgb RM (x / 6, c, y) = hcy_to_rgb RM (x / 6, clamp01 RM c, 1)).
      { unfold hcy_to_rgb. rewrite (clamp_id (clamp01 RM _)) by apply clamp_unit. rewrite (clamp_id 1) by (unfold unit_r; lra).
        assert (E1 : clamp01 RM y = 1) by (unfold clamp01; cbn [sng mixR numR nlt nofZ]; rewrite Rlt_bool_true by exact Y'; reflexivity).
        rewrite E1. reflexivity. }
      rewrite E. rewrite hcy_to_rgb_wheel, FX by (try apply clamp_unit; unfold unit_r; lra).
      unfold hcy_max, hcy_min. cbv zeta. fold t. rewrite Rle_bool_false by lra.
      assert (NN : 95 / 100 <= n).
      { assert ((p - n) * t <= (1 - n) * t) by (apply Rmult_le_compat_r; lra).
        assert ((1 - n) * t <= (1 - n) * (9314 / 10000)) by (apply Rmult_le_compat_l; lra). unfold y in *. lra. }
      replace (1 + (1 - 1) * clamp01 RM c) with 1 by ring. replace (1 - (1 - 1) * clamp01 RM c * t / (1 - t)) with 1 by (field; lra).
      apply wheel_near; [exact X| |]; apply Rabs_le; lra.
Qed.

(** Colours on the rim of the gamut (smallest component 0) survive exactly. *)
Lemma hcy_round_rim : forall r g b, unit_r r -> unit_r g -> unit_r b -> cmin3 RM r g b = 0 ->
  hcy_to_rgb RM (rgb_to_hcy RM (r, g, b)) = (r, g, b).
Proof.
  intros r g b Hr Hg Hb Z0. pose proof (spread_nonneg r g b) as SN.
  destruct (Req_dec (spread r g b) 0) as [P|P].
  - destruct (spread_grey r g b P) as (A & B & C). unfold spread in P. assert (g = 0) by lra. assert (b = 0) by lra. assert (r = 0) by lra. subst r g b.
    rewrite rgb_to_hcy_grey. change (hcy_to_rgb RM (0, 0, luma (0, 0, 0)) = (0, 0, 0)).
    assert (L : luma (0, 0, 0) = 0) by (unfold luma; ring). rewrite L.
    rewrite hcy_to_rgb_wheel by (unfold unit_r; lra). pose proof (frac_range 0) as F.
    destruct (hcy_grey (6 * fraction 0) 0) as (G1 & G2); [lra|]. rewrite G1, G2, wheel_grey. reflexivity.
  - assert (P' : 0 < spread r g b) by lra. rewrite rgb_to_hcy_R by exact P'. cbv zeta. rewrite Z0.
    pose proof (rgb_wheel r g b P') as W. pose proof (hue6_range r g b P') as X. rewrite Z0 in W. unfold spread in P'. rewrite Z0 in P'.
    destruct (cmax3_R r g b) as (M1 & M2 & M3 & M). revert W X P' M1 M2 M3 M. generalize (cmax3 RM r g b : R) as p. generalize (hue6 r g b) as x.
    intros x p W X P' M1 M2 M3 M. rewrite W in *. rewrite luma_wheel in *. pose proof (tint_range x X) as T. set (t := tint x) in *.
    assert (Hp : p <= 1) by (unfold unit_r in *; lra).
    assert (Y0 : (p - 0) * t <= t). { apply Rle_trans with (1 * t); [apply Rmult_le_compat_r; lra|lra]. }
    assert (Y1 : 10036 / 10000 * 0 + (p - 0) * t < 1) by lra.
    destruct (hcy_trip 0 p t ltac:(lra) ltac:(lra) Hp T Y1) as (C & Yp & LO & _). cbv zeta in *.
    set (y := 10036 / 10000 * 0 + (p - 0) * t) in *. set (c := Rmax _ _) in *. clearbody c.
    destruct (LO ltac:(unfold y; lra)) as (A & B).
    rewrite hcy_to_rgb_wheel by (try exact C; unfold unit_r; lra). rewrite frac_id by lra. replace (6 * (x / 6)) with x by field.
    unfold hcy_max, hcy_min. cbv zeta. fold t. rewrite Rle_bool_true by (unfold y; lra). rewrite A, B.
    unfold e36. replace (p + 36 / 10000 * 0 / t) with p by (field; lra). reflexivity.
Qed.

(** the luma of the colour that HCY coordinates denote *)
Lemma hcy_luma : forall h c y, unit_r c -> unit_r y ->
  exists k, 0 <= k <= 1 /\ luma (hcy_to_rgb RM (h, c, y)) = y + e36 * k.
Proof.
  intros h c y Hc Hy. rewrite hcy_to_rgb_wheel by assumption. pose proof (frac_range h) as F.
  assert (X : 0 <= 6 * fraction h < 6) by lra. set (x := 6 * fraction h) in *. clearbody x.
  pose proof (tint_range x X) as T. pose proof (hcy_range x c y X Hc Hy) as G. rewrite luma_wheel.
  exists (hcy_min x c y). split; [lra|]. unfold hcy_max, hcy_min, e36. cbv zeta. destruct (Rle_bool y (tint x)); field; lra.
Qed.

(** ** Angles *)
Lemma mod_arith_R : forall a n : R, mod_arith RM a n = a - n * IZR (Zfloor (a / n)).
Proof. reflexivity. Qed.

Lemma mod_arith_range : forall a n : R, 0 < n -> 0 <= mod_arith RM a n < n.
Proof.
  intros a n H. rewrite mod_arith_R. pose proof (Zfloor_lb (a / n)) as L. pose proof (Zfloor_ub (a / n)) as U.
  assert (E : a = n * (a / n)) by (field; lra).
  assert (n * IZR (Zfloor (a / n)) <= n * (a / n)) by (apply Rmult_le_compat_l; lra).
  assert (n * (a / n) < n * (IZR (Zfloor (a / n)) + 1)) by (apply Rmult_lt_compat_l; lra). lra.
Qed.

Lemma angular_R : forall a b : R, smallest_angular_difference RM a b = mod_arith RM (b - a + 180) 360 - 180.
Proof.
  intros a b. pose proof (mod_arith_range (b - a + 180) 360 ltac:(lra)) as H.
  unfold smallest_angular_difference. cbn [sng mixR numR nadd nsub nlt nofZ].
  rewrite !Rlt_bool_false by lra. lra.
Qed.
