(** No holes in the rows of a dab mask: rounding analysis of [calculate_rr] along a
    row of pixels (property C10), in terms of the real values of the floats. *)
From Verif Require Import Base F32 F32Proofs OpaProofs.
From Coq Require Import Reals Lra Psatz.
From Flocq Require Import Core.Core.
Local Open Scope R_scope.

Lemma abs_case : forall x y, Rabs x <= y <-> - y <= x <= y.
Proof. intros. split; [apply Rabs_le_inv|apply Rabs_le]. Qed.

(** tiny: covers all underflow errors *)
Definition tau : R := / 1099511627776.
Lemma tiny_tau : 0 <= bpow radix2 (-150) <= tau * tau.
Proof. apply bpow150_small. Qed.

Lemma rel_err : forall x, Rabs (rnd32 x - x) <= U * Rabs x + tau * tau.
Proof. intros x. pose proof (rnd32_gen x) as H. pose proof tiny_tau. unfold U. lra. Qed.
Lemma abs_err : forall x e, Rabs x <= bpow radix2 e -> (-125 <= e)%Z -> Rabs (rnd32 x - x) <= bpow radix2 e * U / 2.
Proof.
  intros x e Hx He. pose proof (rnd32_err x e Hx He) as H. replace (bpow radix2 e * U / 2) with (bpow radix2 (e - 25)); auto.
  replace (e - 25)%Z with (e + (-25))%Z by lia. rewrite bpow_plus. change (bpow radix2 (-25)) with (/ 33554432). unfold U. lra.
Qed.

Section Row.
  Context (c1 c2 sn cs A : R).
  Hypotheses (Hs : -1 <= sn <= 1) (Hc : -1 <= cs <= 1) (HA : 1 <= A <= 1048576).
  Hypothesis (H1 : Rabs (sn * sn + cs * cs - 1) <= / 65536).
  Hypothesis (H2 : Rabs (cs * c2 - sn * c1) <= / 1000).

  (** the computation of one pixel, before the last addition *)
  Definition px (X : R) : R := rnd32 X.
  Definition pw X := rnd32 (px X * sn).
  Definition pv X := rnd32 (px X * cs).
  Definition pd X := rnd32 (c1 - pw X).
  Definition pY X := rnd32 (pd X * A).
  Definition pe X := rnd32 (c2 + pv X).
  Definition sum X := rnd32 (pY X * pY X) + rnd32 (pe X * pe X).
  (** the same in exact arithmetic *)
  Definition Y0 X := A * (c1 - X * sn).
  Definition e0 X := c2 + X * cs.
  Definition quad X := Y0 X * Y0 X + e0 X * e0 X.
  Definition steep : R := A * Rabs sn.
  Definition curv : R := A * A * (sn * sn) + cs * cs.

  Lemma steep_rng : 0 <= steep <= 1048576.
  Proof. unfold steep. assert (0 <= Rabs sn <= 1) by (split; [apply Rabs_pos|apply Rabs_le; lra]). nra. Qed.
  Lemma steep_sq : steep * steep = A * A * (sn * sn).
  Proof. unfold steep. assert (Rabs sn * Rabs sn = sn * sn) as E by (rewrite <- Rabs_mult; apply Rabs_pos_eq; nra). nra. Qed.
  Lemma curv_ge : 1 - / 65536 <= curv.
  Proof. apply abs_case in H1. unfold curv. assert (sn * sn <= A * A * (sn * sn)) by (assert (0 <= sn * sn) by nra; assert (1 <= A * A) by nra; nra). lra. Qed.

  (** along the row the exact value is convex with a definite curvature *)
  Lemma quad_between : forall X1 X2 X3, X1 + 1 <= X2 -> X2 + 1 <= X3 -> quad X2 + curv <= Rmax (quad X1) (quad X3).
  Proof.
    intros X1 X2 X3 D1 D2.
    assert ((X3 - X1) * quad X2 = (X3 - X2) * quad X1 + (X2 - X1) * quad X3 - (X2 - X1) * (X3 - X2) * (X3 - X1) * curv) as E by (unfold quad, Y0, e0, curv; ring).
    pose proof (Rmax_l (quad X1) (quad X3)). pose proof (Rmax_r (quad X1) (quad X3)). set (m := Rmax _ _) in *.
    pose proof curv_ge as C.
    assert ((X3 - X2) * quad X1 <= (X3 - X2) * m) by (apply Rmult_le_compat_l; lra).
    assert ((X2 - X1) * quad X3 <= (X2 - X1) * m) by (apply Rmult_le_compat_l; lra).
    assert (1 <= (X2 - X1) * (X3 - X2)) by nra.
    assert (1 * ((X3 - X1) * curv) <= (X2 - X1) * (X3 - X2) * ((X3 - X1) * curv)) by (apply Rmult_le_compat_r; [apply Rmult_le_pos|]; lra).
    assert ((X3 - X1) * (quad X2 + curv) <= (X3 - X1) * m) by lra.
    apply Rmult_le_reg_l with (X3 - X1); lra.
  Qed.

  (** ** Errors for positions and results below [M] *)
  Section Err.
    Context (M : R) (HM : 1024 <= M <= 2048) (E1 : forall t, Rabs t <= M -> Rabs (rnd32 t - t) <= M * U / 2)
            (E2 : forall t, Rabs t <= M * M -> Rabs (rnd32 t - t) <= M * M * U / 2).
    Definition g : R := 3 / 2 * steep * M * U + tau.

    Lemma px_err : forall X, Rabs X <= M - 1 -> Rabs (px X - X) <= M * U / 2 /\ Rabs (px X) <= M.
    Proof.
      intros X HX. assert (Rabs (px X - X) <= M * U / 2) as E by (apply E1; lra). split; auto.
      apply abs_case in HX. apply abs_case in E. apply abs_case. unfold U in E. lra.
    Qed.
    Lemma prod_err : forall X k, Rabs X <= M - 1 -> Rabs (rnd32 (px X * k) - X * k) <= 3 / 2 * Rabs k * M * U + tau * tau.
    Proof.
      intros X k HX. destruct (px_err X HX) as (D & B). pose proof (rel_err (px X * k)) as R.
      rewrite Rabs_mult in R. assert (Rabs (px X) * Rabs k <= M * Rabs k) by (apply Rmult_le_compat_r; [apply Rabs_pos|auto]).
      assert (U * (Rabs (px X) * Rabs k) <= U * (M * Rabs k)) by (apply Rmult_le_compat_l; [unfold U; lra|auto]).
      assert (Rabs (px X * k - X * k) <= M * U / 2 * Rabs k) by (rewrite <- Rmult_minus_distr_r, Rabs_mult; apply Rmult_le_compat_r; [apply Rabs_pos|auto]).
      replace (rnd32 (px X * k) - X * k) with ((rnd32 (px X * k) - px X * k) + (px X * k - X * k)) by ring.
      eapply Rle_trans; [apply Rabs_triang|]. lra.
    Qed.
    Lemma W_err : forall X, Rabs X <= M - 1 -> Rabs (A * (c1 - pw X) - Y0 X) <= g.
    Proof.
      intros X HX. pose proof (prod_err X sn HX) as P. fold (pw X) in P. unfold Y0.
      replace (A * (c1 - pw X) - A * (c1 - X * sn)) with (- (A * (pw X - X * sn))) by ring. rewrite Rabs_Ropp, Rabs_mult, (Rabs_pos_eq A) by lra.
      assert (A * Rabs (pw X - X * sn) <= A * (3 / 2 * Rabs sn * M * U + tau * tau)) by (apply Rmult_le_compat_l; lra).
      assert (A * (tau * tau) <= tau) by (unfold tau; lra). unfold g, steep. lra.
    Qed.
    Lemma Y_err : forall X, Rabs X <= M - 1 -> Rabs (Y0 X) + 11 / 10 * g + 1 <= M ->
      Rabs (pY X - Y0 X) <= M * U / 2 + U * Rabs (Y0 X) + (1 + U) * g + tau /\ Rabs (pY X) <= M.
    Proof.
      intros X HX HY. pose proof (W_err X HX) as W. pose proof (rel_err (c1 - pw X)) as R. fold (pd X) in R.
      assert (Rabs (A * (c1 - pw X)) <= Rabs (Y0 X) + g) as BW.
      { replace (A * (c1 - pw X)) with (Y0 X + (A * (c1 - pw X) - Y0 X)) by ring. eapply Rle_trans; [apply Rabs_triang|]. lra. }
      assert (Rabs (pd X * A - A * (c1 - pw X)) <= U * (Rabs (Y0 X) + g) + tau) as D.
      { replace (pd X * A - A * (c1 - pw X)) with (A * (pd X - (c1 - pw X))) by ring. rewrite Rabs_mult, (Rabs_pos_eq A) by lra.
        assert (A * Rabs (pd X - (c1 - pw X)) <= A * (U * Rabs (c1 - pw X) + tau * tau)) by (apply Rmult_le_compat_l; lra).
        rewrite Rabs_mult, (Rabs_pos_eq A) in BW by lra. assert (U * (A * Rabs (c1 - pw X)) <= U * (Rabs (Y0 X) + g)) by (apply Rmult_le_compat_l; [unfold U; lra|auto]).
        assert (A * (tau * tau) <= tau) by (unfold tau; lra). lra. }
      assert (0 <= g) as G0. { unfold g. pose proof steep_rng. assert (0 <= steep * M) by (apply Rmult_le_pos; lra). unfold U, tau. lra. }
      assert (Rabs (pd X * A - Y0 X) <= U * Rabs (Y0 X) + (1 + U) * g + tau) as T.
      { replace (pd X * A - Y0 X) with ((pd X * A - A * (c1 - pw X)) + (A * (c1 - pw X) - Y0 X)) by ring. eapply Rle_trans; [apply Rabs_triang|]. lra. }
      pose proof (Rabs_pos (Y0 X)) as P0.
      assert (Rabs (pd X * A) <= M - 1 / 2) as BM.
      { replace (pd X * A) with (Y0 X + (pd X * A - Y0 X)) by ring. eapply Rle_trans; [apply Rabs_triang|]. unfold U, tau in *. lra. }
      assert (Rabs (pY X - pd X * A) <= M * U / 2) as EY by (apply E1; lra). split.
      - replace (pY X - Y0 X) with ((pY X - pd X * A) + (pd X * A - Y0 X)) by ring. eapply Rle_trans; [apply Rabs_triang|]. lra.
      - replace (pY X) with ((pY X - pd X * A) + pd X * A) by ring. eapply Rle_trans; [apply Rabs_triang|]. unfold U in EY. lra.
    Qed.
    Lemma e_err : forall X, Rabs X <= M - 1 -> Rabs (e0 X) + 1 <= M ->
      Rabs (pe X - e0 X) <= M * U / 2 + 3 / 2 * Rabs cs * M * U + tau /\ Rabs (pe X) <= M.
    Proof.
      intros X HX HY. pose proof (prod_err X cs HX) as P. fold (pv X) in P.
      assert (0 <= Rabs cs <= 1) as Ac by (split; [apply Rabs_pos|apply Rabs_le; lra]).
      assert (Rabs cs * M <= 1 * M) by (apply Rmult_le_compat_r; lra).
      assert (Rabs (c2 + pv X - e0 X) <= 3 / 2 * Rabs cs * M * U + tau * tau) as D by (unfold e0; replace (c2 + pv X - (c2 + X * cs)) with (pv X - X * cs) by ring; auto).
      assert (Rabs (c2 + pv X) <= M - 1 / 2) as BM.
      { replace (c2 + pv X) with (e0 X + (c2 + pv X - e0 X)) by ring. eapply Rle_trans; [apply Rabs_triang|]. unfold U, tau in *. lra. }
      assert (Rabs (pe X - (c2 + pv X)) <= M * U / 2) as EY by (apply E1; lra). split.
      - replace (pe X - e0 X) with ((pe X - (c2 + pv X)) + (c2 + pv X - e0 X)) by ring. eapply Rle_trans; [apply Rabs_triang|]. unfold tau in *. lra.
      - replace (pe X) with ((pe X - (c2 + pv X)) + (c2 + pv X)) by ring. eapply Rle_trans; [apply Rabs_triang|]. unfold U in EY. lra.
    Qed.
    Lemma sq_diff : forall a b d, Rabs (a - b) <= d -> Rabs (a * a - b * b) <= d * (2 * Rabs b + d).
    Proof.
      intros a b d H. replace (a * a - b * b) with ((a - b) * (2 * b + (a - b))) by ring. rewrite Rabs_mult.
      apply Rmult_le_compat; try apply Rabs_pos; auto. eapply Rle_trans; [apply Rabs_triang|]. rewrite Rabs_mult, (Rabs_pos_eq 2) by lra. lra.
    Qed.
    Lemma sum_err : forall X, Rabs X <= M - 1 -> Rabs (Y0 X) + 11 / 10 * g + 1 <= M -> Rabs (e0 X) + 1 <= M ->
      let D1 := M * U / 2 + U * Rabs (Y0 X) + (1 + U) * g + tau in
      let D2 := M * U / 2 + 3 / 2 * Rabs cs * M * U + tau in
      Rabs (sum X - quad X) <= M * M * U + D1 * (2 * Rabs (Y0 X) + D1) + D2 * (2 * Rabs (e0 X) + D2).
    Proof.
      intros X HX HY He D1 D2. destruct (Y_err X HX HY) as (A1 & B1). destruct (e_err X HX He) as (A2 & B2). fold D1 in A1. fold D2 in A2.
      pose proof (sq_diff _ _ _ A1) as S1. pose proof (sq_diff _ _ _ A2) as S2.
      assert (forall z, Rabs z <= M -> Rabs (rnd32 (z * z) - z * z) <= M * M * U / 2) as Q.
      { intros z Hz. apply E2. rewrite Rabs_mult. apply Rmult_le_compat; auto; apply Rabs_pos. }
      pose proof (Q _ B1) as Q1. pose proof (Q _ B2) as Q2. unfold sum, quad. apply abs_case in S1, S2, Q1, Q2. apply abs_case. lra.
    Qed.
  End Err.

  Lemma E1_10 : forall t, Rabs t <= 1024 -> Rabs (rnd32 t - t) <= 1024 * U / 2.
  Proof. intros t H. apply (abs_err t 10); [exact H|lia]. Qed.
  Lemma E2_10 : forall t, Rabs t <= 1024 * 1024 -> Rabs (rnd32 t - t) <= 1024 * 1024 * U / 2.
  Proof. intros t H. pose proof (abs_err t 20) as X. change (bpow radix2 20) with 1048576 in X. replace (1024 * 1024) with 1048576 in * by lra. apply X; [exact H|lia]. Qed.
  Lemma E1_11 : forall t, Rabs t <= 2048 -> Rabs (rnd32 t - t) <= 2048 * U / 2.
  Proof. intros t H. apply (abs_err t 11); [exact H|lia]. Qed.
  Lemma E2_11 : forall t, Rabs t <= 2048 * 2048 -> Rabs (rnd32 t - t) <= 2048 * 2048 * U / 2.
  Proof. intros t H. pose proof (abs_err t 22) as X. change (bpow radix2 22) with 4194304 in X. replace (2048 * 2048) with 4194304 in * by lra. apply X; [exact H|lia]. Qed.

  (** from the rounded value back to the exact argument *)
  Lemma rnd_back : forall t, Rabs t <= (Rabs (rnd32 t) + tau) * (1 + 2 * U).
  Proof.
    intros t. pose proof (rel_err t) as R. assert (Rabs t <= Rabs (rnd32 t) + Rabs (rnd32 t - t)).
    { replace t with (rnd32 t + - (rnd32 t - t)) at 1 by ring. eapply Rle_trans; [apply Rabs_triang|]. rewrite Rabs_Ropp. lra. }
    pose proof (Rabs_pos (rnd32 t)). set (a := Rabs t) in *. set (b := Rabs (rnd32 t)) in *. unfold U, tau in *. nra.
  Qed.

  (** a pixel that is painted is not far away *)
  Lemma painted : forall X, sum X <= 1024150 ->
    Rabs X <= 1013 /\ (A * (c1 - pw X)) * (A * (c1 - pw X)) + (c2 + pv X) * (c2 + pv X) <= 1024160.
  Proof.
    intros X HS. unfold sum in HS.
    assert (forall z, z * z <= (rnd32 (z * z) + tau) * (1 + 2 * U) /\ 0 <= rnd32 (z * z)) as SQ.
    { intros z. assert (0 <= z * z) by nra. pose proof (rnd_back (z * z)) as B. rewrite (Rabs_pos_eq (z * z)) in B by auto.
      pose proof (nonneg_rnd _ H). rewrite (Rabs_pos_eq (rnd32 (z * z))) in B by auto. auto. }
    destruct (SQ (pY X)) as (S1 & S1'). destruct (SQ (pe X)) as (S2 & S2'). set (P := rnd32 (pY X * pY X)) in *. set (Q := rnd32 (pe X * pe X)) in *.
    assert (pY X * pY X + pe X * pe X <= 1024151) as S3 by (unfold U, tau in *; lra).
    assert (forall z, z * z <= 1024151 -> Rabs z <= 1012 + 1 / 100) as RT.
    { intros z Hz. apply Rnot_lt_le. intros L. assert (Rabs z * Rabs z = z * z) by (rewrite <- Rabs_mult; apply Rabs_pos_eq; nra). nra. }
    assert (Rabs (pY X) <= 1012 + 1 / 100) as BY by (apply RT; nra). assert (Rabs (pe X) <= 1012 + 1 / 100) as Be by (apply RT; nra).
    assert (Rabs (A * (c1 - pw X)) <= Rabs (pY X) + / 1000) as BW.
    { pose proof (rnd_back (pd X * A)) as B1. fold (pY X) in B1. pose proof (rnd_back (c1 - pw X)) as B2. fold (pd X) in B2.
      rewrite !Rabs_mult, (Rabs_pos_eq A) in * by lra. set (a := Rabs (c1 - pw X)) in *. set (b := Rabs (pd X)) in *.
      assert (A * a <= A * ((b + tau) * (1 + 2 * U))) by (apply Rmult_le_compat_l; lra).
      assert (A * a <= (b * A + A * tau) * (1 + 2 * U)) by lra.
      assert (A * tau <= / 1000000) by (unfold tau; lra). unfold U, tau in *. lra. }
    assert (Rabs (c2 + pv X) <= Rabs (pe X) + / 1000) as Bf.
    { pose proof (rnd_back (c2 + pv X)) as B1. fold (pe X) in B1. unfold U, tau in *. lra. }
    assert (forall z, z * z = Rabs z * Rabs z) as AB by (intros z; rewrite <- Rabs_mult; symmetry; apply Rabs_pos_eq; nra).
    assert ((A * (c1 - pw X)) * (A * (c1 - pw X)) + (c2 + pv X) * (c2 + pv X) <= 1024160) as S4.
    { rewrite (AB (A * _)), (AB (c2 + _)), (AB (pY X)), (AB (pe X)) in *. pose proof (Rabs_pos (A * (c1 - pw X))). pose proof (Rabs_pos (c2 + pv X)). pose proof (Rabs_pos (pY X)). pose proof (Rabs_pos (pe X)).
      set (y := Rabs (pY X)) in *. set (e := Rabs (pe X)) in *. set (yy := Rabs (A * _)) in *. set (ee := Rabs (c2 + _)) in *.
      assert (yy * yy <= (y + / 1000) * (y + / 1000)) by (apply Rmult_le_compat; lra). assert (ee * ee <= (e + / 1000) * (e + / 1000)) by (apply Rmult_le_compat; lra). lra. }
    split; [|exact S4].
    set (W := c1 - pw X) in *. set (f := c2 + pv X) in *.
    assert (W * W + f * f <= 1024160) as S5. { assert (W * W <= A * W * (A * W)); [|lra]. assert (0 <= W * W) by nra. assert (1 <= A * A) by nra. nra. }
    assert ((cs * f - sn * W) * (cs * f - sn * W) <= 1024180) as S6.
    { assert ((cs * f - sn * W) * (cs * f - sn * W) + (sn * f + cs * W) * (sn * f + cs * W) = (sn * sn + cs * cs) * (W * W + f * f)) by ring.
      apply abs_case in H1. assert (0 <= (sn * f + cs * W) * (sn * f + cs * W)) by apply Rle_0_sqr. assert (0 <= W * W) by apply Rle_0_sqr. assert (0 <= f * f) by apply Rle_0_sqr.
      assert ((sn * sn + cs * cs) * (W * W + f * f) <= (1 + / 65536) * 1024160) by (apply Rmult_le_compat; lra). lra. }
    assert (Rabs (cs * f - sn * W) <= 1012 + 1 / 50) as S7. { apply Rnot_lt_le. intros L. rewrite AB in S6. nra. }
    assert (forall k, -1 <= k <= 1 -> Rabs (k * rnd32 (px X * k) - px X * (k * k)) <= U * Rabs (px X) + tau) as PR.
    { intros k Hk. replace (k * rnd32 (px X * k) - px X * (k * k)) with (k * (rnd32 (px X * k) - px X * k)) by ring. rewrite Rabs_mult. pose proof (rel_err (px X * k)) as R. rewrite Rabs_mult in R.
      assert (0 <= Rabs k <= 1) by (split; [apply Rabs_pos|apply Rabs_le; lra]). pose proof (Rabs_pos (px X)). pose proof (Rabs_pos (rnd32 (px X * k) - px X * k)).
      assert (Rabs (px X) * Rabs k <= Rabs (px X) * 1) by (apply Rmult_le_compat_l; lra).
      assert (Rabs k * Rabs (rnd32 (px X * k) - px X * k) <= 1 * (U * Rabs (px X) + tau)); [|lra]. apply Rmult_le_compat; try lra. unfold U, tau in *. lra. }
    pose proof (PR sn Hs) as P1. fold (pw X) in P1. pose proof (PR cs Hc) as P2. fold (pv X) in P2.
    assert (Rabs (px X * (sn * sn + cs * cs)) <= 1012 + 3 / 100 + 2 * (U * Rabs (px X) + tau)) as S8.
    { assert (px X * (sn * sn + cs * cs) = (cs * f - sn * W) - (cs * c2 - sn * c1) - (sn * pw X - px X * (sn * sn)) - (cs * pv X - px X * (cs * cs))) as -> by (unfold f, W; ring).
      apply abs_case in S7, P1, P2. apply abs_case in H2. apply abs_case. lra. }
    assert (Rabs (px X) <= 1012 + 1 / 10) as S9.
    { rewrite Rabs_mult in S8. apply abs_case in H1. rewrite (Rabs_pos_eq (sn * sn + cs * cs)) in S8 by lra. pose proof (Rabs_pos (px X)).
      assert (Rabs (px X) * (1 - / 65536) <= Rabs (px X) * (sn * sn + cs * cs)) by (apply Rmult_le_compat_l; lra). unfold U, tau in *. lra. }
    pose proof (rnd_back X) as B. fold (px X) in B. unfold U, tau in *. lra.
  Qed.

  Lemma abs_sq : forall z, z * z = Rabs z * Rabs z.
  Proof. intros z. rewrite <- Rabs_mult. symmetry. apply Rabs_pos_eq. nra. Qed.
  Lemma sq_le_abs : forall z k, 0 <= k -> z * z <= k * k -> Rabs z <= k.
  Proof. intros z k Hk H. rewrite abs_sq in H. pose proof (Rabs_pos z). apply Rnot_lt_le. intros L. nra. Qed.

  (** the exact value of a painted pixel *)
  Lemma painted_quad : forall X, sum X <= 1024150 -> Rabs X <= 1013 /\ quad X <= 2280100 /\ (steep <= 16 -> quad X <= 1024200).
  Proof.
    intros X HS. destruct (painted X HS) as (BX & S). split; auto.
    pose proof (W_err 1024 ltac:(lra) E1_10 X ltac:(lra)) as W. pose proof (prod_err 1024 ltac:(lra) E1_10 X cs ltac:(lra)) as F. fold (pv X) in F.
    assert (0 <= Rabs cs <= 1) as Ac by (split; [apply Rabs_pos|apply Rabs_le; lra]). pose proof steep_rng as St.
    assert (Rabs (c2 + pv X - e0 X) <= / 10000) as F' by (unfold e0; replace (c2 + pv X - (c2 + X * cs)) with (pv X - X * cs) by ring; unfold U, tau in *; lra).
    assert (Rabs (A * (c1 - pw X)) <= 1013) as BW by (apply sq_le_abs; [lra|]; pose proof (Rle_0_sqr (c2 + pv X)) as Z; unfold Rsqr in Z; lra).
    assert (Rabs (c2 + pv X) <= 1013) as Bf by (apply sq_le_abs; [lra|]; pose proof (Rle_0_sqr (A * (c1 - pw X))) as Z; unfold Rsqr in Z; lra).
    assert (forall a b d, Rabs (a - b) <= d -> b * b <= a * a + d * (2 * Rabs a + d)) as SQ.
    { intros a b d H. rewrite Rabs_minus_sym in H. pose proof (sq_diff b a d H) as Q. apply abs_case in Q. lra. }
    pose proof (SQ _ _ _ W) as Q1. pose proof (SQ _ _ _ F') as Q2. unfold quad.
    assert (/ 10000 * (2 * Rabs (c2 + pv X) + / 10000) <= 1) by lra.
    assert (0 <= g 1024) as G0 by (unfold g, U, tau; lra).
    split.
    - assert (g 1024 <= 97) by (unfold g, U, tau; lra).
      assert (g 1024 * (2 * Rabs (A * (c1 - pw X)) + g 1024) <= 97 * (2 * 1013 + 97)) by (apply Rmult_le_compat; try lra; pose proof (Rabs_pos (A * (c1 - pw X))); lra). lra.
    - intros S16. assert (g 1024 <= 2 / 1000) by (unfold g, U, tau; lra).
      assert (g 1024 * (2 * Rabs (A * (c1 - pw X)) + g 1024) <= 2 / 1000 * (2 * 1013 + 2 / 1000)) by (apply Rmult_le_compat; try lra; pose proof (Rabs_pos (A * (c1 - pw X))); lra). lra.
  Qed.

  Lemma small_err : forall X, steep <= 16 -> Rabs X <= 1013 -> quad X <= 1024200 -> Rabs (sum X - quad X) <= 37 / 100 + 95 / 1000 * curv.
  Proof.
    intros X S16 BX BQ. pose proof steep_rng as St.
    assert (Rabs (Y0 X) <= 1013) as BY by (apply sq_le_abs; [lra|]; unfold quad in BQ; pose proof (Rle_0_sqr (e0 X)) as Z; unfold Rsqr in Z; lra).
    assert (Rabs (e0 X) <= 1013) as Be by (apply sq_le_abs; [lra|]; unfold quad in BQ; pose proof (Rle_0_sqr (Y0 X)) as Z; unfold Rsqr in Z; lra).
    assert (g 1024 = steep * (3 / 32768) + tau) as G by (unfold g, U; lra). assert (g 1024 <= 2 / 1000) by (rewrite G; unfold tau; lra).
    pose proof (sum_err 1024 ltac:(lra) E1_10 E2_10 X ltac:(lra) ltac:(lra) ltac:(lra)) as E. cbv zeta in E.
    unfold curv. rewrite <- steep_sq, (abs_sq cs). unfold quad in BQ. rewrite (abs_sq (Y0 X)), (abs_sq (e0 X)) in BQ.
    assert (0 <= Rabs cs <= 1) as Ac by (split; [apply Rabs_pos|apply Rabs_le; lra]).
    pose proof (Rabs_pos (Y0 X)) as PY. pose proof (Rabs_pos (e0 X)) as Pe.
    set (a := Rabs (Y0 X)) in *. set (b := Rabs (e0 X)) in *. set (c := Rabs cs) in *. set (s := steep) in *. rewrite G in E.
    set (D1 := 1024 * U / 2 + U * a + (1 + U) * (s * (3 / 32768) + tau) + tau) in *. set (D2 := 1024 * U / 2 + 3 / 2 * c * 1024 * U + tau) in *.
    assert (D1 <= / 32768 + / 16777216 * a + s * (302 / 3276800) + / 1000000000) as B1 by (unfold D1, U, tau; lra).
    assert (D2 <= / 32768 + c * (3 / 32768) + / 1000000000) as B2 by (unfold D2, U, tau; lra).
    assert (0 <= D1 <= 2 / 1000) as B1' by (unfold D1, U, tau in *; lra). assert (0 <= D2 <= 2 / 1000) as B2' by (unfold D2, U, tau in *; lra).
    assert (D1 * (2 * a + D1) <= 2 * a * (/ 32768 + / 16777216 * a + s * (302 / 3276800) + / 1000000000) + / 250000) as C1.
    { assert (D1 * D1 <= 2 / 1000 * (2 / 1000)) by (apply Rmult_le_compat; lra). assert (2 * a * D1 <= 2 * a * (/ 32768 + / 16777216 * a + s * (302 / 3276800) + / 1000000000)) by (apply Rmult_le_compat_l; lra). lra. }
    assert (D2 * (2 * b + D2) <= 2 * b * (/ 32768 + c * (3 / 32768) + / 1000000000) + / 250000) as C2.
    { assert (D2 * D2 <= 2 / 1000 * (2 / 1000)) by (apply Rmult_le_compat; lra). assert (2 * b * D2 <= 2 * b * (/ 32768 + c * (3 / 32768) + / 1000000000)) by (apply Rmult_le_compat_l; lra). lra. }
    assert (a * s <= (1024 * (s * s) + a * a / 1024) / 2) as M1. { pose proof (Rle_0_sqr (1024 * s - a)) as Z. unfold Rsqr in Z. lra. }
    assert (b * c <= (1024 * (c * c) + b * b / 1024) / 2) as M2. { pose proof (Rle_0_sqr (1024 * c - b)) as Z. unfold Rsqr in Z. lra. }
    assert (a <= (a * a / 717 + 717) / 2) as M3. { pose proof (Rle_0_sqr (a - 717)) as Z. unfold Rsqr in Z. lra. }
    assert (b <= (b * b / 717 + 717) / 2) as M4. { pose proof (Rle_0_sqr (b - 717)) as Z. unfold Rsqr in Z. lra. }
    assert (0 <= b * b) by nra. assert (0 <= a * a) by nra. assert (0 <= c * c) by nra. assert (0 <= s * s) by nra.
    assert (a * s * (302 / 3276800) <= (1024 * (s * s) + a * a / 1024) / 2 * (302 / 3276800)) as M1' by (apply Rmult_le_compat_r; lra).
    assert (b * c * (3 / 32768) <= (1024 * (c * c) + b * b / 1024) / 2 * (302 / 3276800)) as M2' by (apply Rmult_le_compat; try lra; nra).
    eapply Rle_trans; [exact E|]. unfold U. lra.
  Qed.

  Lemma big_err : forall X, 16 <= steep -> Rabs X <= 1013 -> quad X <= 2280100 -> Rabs (sum X - quad X) <= 6 / 10 * steep + 2.
  Proof.
    intros X S16 BX BQ. pose proof steep_rng as St.
    assert (Rabs (Y0 X) <= 1510) as BY by (apply sq_le_abs; [lra|]; unfold quad in BQ; pose proof (Rle_0_sqr (e0 X)) as Z; unfold Rsqr in Z; lra).
    assert (Rabs (e0 X) <= 1510) as Be by (apply sq_le_abs; [lra|]; unfold quad in BQ; pose proof (Rle_0_sqr (Y0 X)) as Z; unfold Rsqr in Z; lra).
    assert (g 2048 = steep * (3 / 16384) + tau) as G by (unfold g, U; lra). assert (g 2048 <= 193) by (rewrite G; unfold tau; lra).
    pose proof (sum_err 2048 ltac:(lra) E1_11 E2_11 X ltac:(lra) ltac:(lra) ltac:(lra)) as E. cbv zeta in E.
    assert (0 <= Rabs cs <= 1) as Ac by (split; [apply Rabs_pos|apply Rabs_le; lra]).
    pose proof (Rabs_pos (Y0 X)) as PY. pose proof (Rabs_pos (e0 X)) as Pe.
    set (a := Rabs (Y0 X)) in *. set (b := Rabs (e0 X)) in *. set (c := Rabs cs) in *. set (s := steep) in *. rewrite G in E.
    set (D1 := 2048 * U / 2 + U * a + (1 + U) * (s * (3 / 16384) + tau) + tau) in *. set (D2 := 2048 * U / 2 + 3 / 2 * c * 2048 * U + tau) in *.
    assert (0 <= D1 <= s * (301 / 1638400) + / 5000) as B1 by (unfold D1, U, tau; lra).
    assert (0 <= D2 <= / 4000) as B2 by (unfold D2, U, tau; lra).
    assert (D1 <= 193) by lra.
    assert (D1 * (2 * a + D1) <= (s * (301 / 1638400) + / 5000) * (2 * 1510 + 193)) as C1 by (apply Rmult_le_compat; lra).
    assert (D2 * (2 * b + D2) <= / 4000 * (2 * 1510 + 1)) as C2 by (apply Rmult_le_compat; lra).
    eapply Rle_trans; [exact E|]. unfold U. lra.
  Qed.

  (** between two painted pixels of a row the sum is not above both *)
  Lemma sum_between : forall X1 X2 X3, X1 + 1 <= X2 -> X2 + 1 <= X3 -> sum X1 <= 1024150 -> sum X3 <= 1024150 ->
    sum X2 <= Rmax (sum X1) (sum X3).
  Proof.
    intros X1 X2 X3 D1 D2 S1 S3. destruct (painted_quad X1 S1) as (B1 & Q1 & R1). destruct (painted_quad X3 S3) as (B3 & Q3 & R3).
    pose proof (quad_between X1 X2 X3 D1 D2) as QB. pose proof curv_ge as C.
    assert (Rabs X2 <= 1013) as B2 by (apply abs_case in B1, B3; apply abs_case; lra).
    assert (exists N, 2 * N <= curv /\ forall X, X = X1 \/ X = X2 \/ X = X3 -> Rabs (sum X - quad X) <= N) as (N & HN & EN).
    { destruct (Rle_lt_dec steep 16) as [L|L].
      - exists (37 / 100 + 95 / 1000 * curv). split; [lra|].
        assert (quad X2 <= 1024200). { specialize (R1 L). specialize (R3 L). assert (Rmax (quad X1) (quad X3) <= 1024200) by (apply Rmax_lub; auto). lra. }
        intros X [-> |[-> | ->]]; apply small_err; auto.
      - exists (6 / 10 * steep + 2). split.
        { unfold curv. rewrite <- steep_sq. pose proof (Rle_0_sqr cs) as Z. unfold Rsqr in Z. nra. }
        assert (quad X2 <= 2280100). { assert (Rmax (quad X1) (quad X3) <= 2280100) by (apply Rmax_lub; auto). lra. }
        intros X [-> |[-> | ->]]; apply big_err; auto; lra. }
    pose proof (EN X1 ltac:(auto)) as N1. pose proof (EN X2 ltac:(auto)) as N2. pose proof (EN X3 ltac:(auto)) as N3. apply abs_case in N1, N2, N3.
    destruct (Rle_lt_dec (quad X1) (quad X3)) as [L|L].
    - rewrite (Rmax_right (quad X1)) in QB by auto. eapply Rle_trans; [|apply Rmax_r]. lra.
    - rewrite (Rmax_left (quad X1)) in QB by lra. eapply Rle_trans; [|apply Rmax_l]. lra.
  Qed.
End Row.
