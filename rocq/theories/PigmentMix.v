(** How far the spectral mixing of the pigment modes (brushmodes.c 78-117 etc.)
    is from the weighted geometric mean of the reflectances. *)
From Verif Require Import Base F32 F32Proofs Arith Color Spectral Blend OpaProofs RrProofs Paint PaintProofs P_Spectral PigmentLog PigmentPow.
From Coq Require Import Reals Lra.
From Flocq Require Import Core.Core IEEE754.BinarySingleNaN.
From Interval Require Import Tactic.
Local Open Scope R_scope.

(** ** Relative errors, in units of 2^-23 *)
Definition U : R := / 8388608.
Definition rl (x : f32) (v n : R) : Prop := fin x /\ Rabs (b2r x - v) <= n * U * v.

Lemma rnd32_rel : forall r, / 1099511627776 <= Rabs r -> Rabs (rnd32 r - r) <= 501 / 1000 * U * Rabs r.
Proof.
  intros r H. eapply Rle_trans; [apply rnd32_gen|]. unfold U.
  assert (bpow radix2 (-150) <= bpow radix2 (-90)) as K by (apply bpow_le; lia).
  assert (bpow radix2 (-90) <= / 1000000000000000000000000000) as K' by (simpl; lra). lra.
Qed.

Lemma rl_weak : forall x v n m, rl x v n -> 0 <= v -> n <= m -> rl x v m.
Proof. intros x v n m [F H] V L. split; [exact F|]. eapply Rle_trans; [exact H|]. apply Rmult_le_compat_r; [exact V|]. apply Rmult_le_compat_r; [unfold U; lra|exact L]. Qed.

(** a number within [n] units of [v], rounded *)
Lemma rel_round : forall (r v n : R), 0 <= n <= 100 -> / 549755813888 <= v -> Rabs (r - v) <= n * U * v -> Rabs (rnd32 r - v) <= (n + 1) * U * v.
Proof.
  intros r v n N V H.
  assert (0 <= n * U <= / 2) as NU by (unfold U; lra). 
  assert (n * U * v <= / 2 * v) as K by (apply Rmult_le_compat_r; lra).
  pose proof H as H'. apply Rabs_le_inv in H'.
  assert (Rabs r <= 3/2 * v) as B by (apply Rabs_le; lra).
  assert (v / 2 <= Rabs r) as C by (rewrite Rabs_pos_eq; lra).
  pose proof (rnd32_rel r ltac:(lra)) as R.
  replace (rnd32 r - v) with ((rnd32 r - r) + (r - v)) by ring. eapply Rle_trans; [apply Rabs_triang|].
  assert (501 / 1000 * U * Rabs r <= U * v) as D.
  { unfold U in *. lra. }
  lra.
Qed.

Lemma rl_mul : forall x y v w n m, rl x v n -> rl y w m -> 0 <= n <= 40 -> 0 <= m <= 40 -> / 1048576 <= v * w <= 4 -> 0 < v -> 0 < w ->
  rl (fmul x y) (v * w) (n + m + 2).
Proof.
  intros x y v w n m [Fx Hx] [Fy Hy] N M B V W.
  assert (Rabs (b2r x * b2r y - v * w) <= (n + m + 1) * U * (v * w)) as D.
  { replace (b2r x * b2r y - v * w) with ((b2r x - v) * (b2r y - w) + (b2r x - v) * w + v * (b2r y - w)) by ring.
    eapply Rle_trans; [apply Rabs_triang|]. eapply Rle_trans; [apply Rplus_le_compat_r, Rabs_triang|]. rewrite !Rabs_mult, (Rabs_pos_eq w), (Rabs_pos_eq v) by lra.
    assert (Rabs (b2r x - v) * Rabs (b2r y - w) <= (n * U * v) * (m * U * w)) as D1 by (apply Rmult_le_compat; auto; apply Rabs_pos).
    assert (Rabs (b2r x - v) * w <= (n * U * v) * w) as D2 by (apply Rmult_le_compat_r; lra).
    assert (v * Rabs (b2r y - w) <= v * (m * U * w)) as D3 by (apply Rmult_le_compat_l; lra).
    assert (n * U * v * (m * U * w) <= U * (v * w)) as D4.
    { replace (n * U * v * (m * U * w)) with ((n * m * U) * (U * (v * w))) by ring. rewrite <- (Rmult_1_l (U * (v * w))) at 2.
      apply Rmult_le_compat_r; [unfold U; lra|]. assert (n * m <= 40 * 40) by (apply Rmult_le_compat; lra). unfold U. lra. }
    replace ((n + m + 1) * U * (v * w)) with (U * (v * w) + (n * U * v) * w + v * (m * U * w)) by ring. lra. }
  assert (Rabs (b2r x * b2r y) <= 8) as A.
  { replace (b2r x * b2r y) with (v * w + (b2r x * b2r y - v * w)) by ring. eapply Rle_trans; [apply Rabs_triang|]. rewrite (Rabs_pos_eq (v * w)) by lra.
    assert ((n + m + 1) * U * (v * w) <= 1 * (v * w)) by (apply Rmult_le_compat_r; [lra|unfold U; lra]). lra. }
  destruct (fmul_spec x y Fx Fy) as (E & F).
  { eapply Rle_trans; [exact A|]. change 8 with (bpow radix2 3). apply bpow_le. lia. }
  split; [exact F|]. rewrite E. replace (n + m + 2) with ((n + m + 1) + 1) by ring. apply rel_round; auto; lra.
Qed.

Lemma rl_add : forall x y v w n, rl x v n -> rl y w n -> 0 <= n <= 90 -> 0 <= v -> 0 <= w -> / 1048576 <= v + w <= 4 -> rl (fadd x y) (v + w) (n + 1).
Proof.
  intros x y v w n [Fx Hx] [Fy Hy] N V W B.
  assert (Rabs (b2r x + b2r y - (v + w)) <= n * U * (v + w)) as D.
  { replace (b2r x + b2r y - (v + w)) with ((b2r x - v) + (b2r y - w)) by ring. eapply Rle_trans; [apply Rabs_triang|]. lra. }
  assert (Rabs (b2r x + b2r y) <= 8) as A.
  { replace (b2r x + b2r y) with (v + w + (b2r x + b2r y - (v + w))) by ring. eapply Rle_trans; [apply Rabs_triang|]. rewrite (Rabs_pos_eq (v + w)) by lra.
    assert (n * U * (v + w) <= 1 * (v + w)) by (apply Rmult_le_compat_r; [lra|unfold U; lra]). lra. }
  destruct (fadd_spec x y Fx Fy) as (E & F).
  { eapply Rle_trans; [exact A|]. change 8 with (bpow radix2 3). apply bpow_le. lia. }
  split; [exact F|]. rewrite E. apply rel_round; auto; lra.
Qed.

(** a float initialised with a decimal constant *)
Local Transparent dlit.
Lemma lit_close : forall n, (Z.abs n <= 1000000000000000)%Z ->
  exists r, fin (f_of_d (dlit n 1000000000000000)) /\ b2r (f_of_d (dlit n 1000000000000000)) = rnd32 r /\ Rabs (r - IZR n / 1000000000000000) <= / 9007199254740992 /\ Rabs r <= 2.
Proof.
  intros n H. unfold dlit. destruct (d_of_Z_exact n ltac:(lia)) as (Vn & Fn). destruct (d_of_Z_exact 1000000000000000 ltac:(lia)) as (Vd & Fd).
  assert (Rabs (IZR n / 1000000000000000) <= 1) as Q.
  { unfold Rdiv. rewrite Rabs_mult, (Rabs_pos_eq (/ _)) by lra. rewrite <- abs_IZR. assert (IZR (Z.abs n) <= 1000000000000000) by (apply IZR_le; lia). lra. }
  destruct (ddiv_spec (d_of_Z n) (d_of_Z 1000000000000000) Fn ltac:(rewrite Vd; lra)) as (E & F).
  { rewrite Vn, Vd. apply big1023, big127. apply Rabs_le_inv in Q. apply Rabs_le. lra. }
  pose proof (rnd64_err (IZR n / 1000000000000000) 0 Q ltac:(lia)) as R. change (bpow radix2 (0 - 54)) with (/ 18014398509481984) in R.
  rewrite Vn, Vd in E. rewrite <- E in R. set (q := ddiv _ _) in *.
  assert (Rabs (b2r q) <= 2) as B.
  { replace (b2r q) with (IZR n / 1000000000000000 + (b2r q - IZR n / 1000000000000000)) by ring. eapply Rle_trans; [apply Rabs_triang|]. lra. }
  destruct (f_of_d_spec q F) as (E' & F').
  { apply big127. apply Rabs_le_inv in B. apply Rabs_le. lra. }
  exists (b2r q). split; [exact F'|]. split; [exact E'|]. split; [|exact B]. lra.
Qed.
Local Opaque dlit.
Lemma lit_rl : forall n, (1000000000000 <= n <= 1000000000000000)%Z -> rl (f_of_d (dlit n 1000000000000000)) (IZR n / 1000000000000000) 2.
Proof.
  intros n H. destruct (lit_close n ltac:(lia)) as (r & F & E & D & B). split; [exact F|]. rewrite E. 
  assert (/ 1000 <= IZR n / 1000000000000000) by (assert (1000000000000 <= IZR n) by (apply IZR_le; lia); lra).
  replace 2 with (1 + 1) by ring. apply rel_round; [lra|lra|]. unfold U. lra.
Qed.
Lemma lit_ap : forall n, (Z.abs n <= 1000000000000000)%Z -> ap (f_of_d (dlit n 1000000000000000)) (IZR n / 1000000000000000) (/ 8388608).
Proof.
  intros n H. destruct (lit_close n ltac:(lia)) as (r & F & E & D & B). split; [exact F|]. rewrite E.
  pose proof (rnd32_err r 1 B ltac:(lia)) as R. change (bpow radix2 (1 - 25)) with (/ 16777216) in R.
  replace (rnd32 r - IZR n / 1000000000000000) with ((rnd32 r - r) + (r - IZR n / 1000000000000000)) by ring. eapply Rle_trans; [apply Rabs_triang|]. lra.
Qed.

(** ** A colour component as a float: nothing at all, or not too small *)
Definition comp (c : f32) (v : R) : Prop := fin c /\ Rabs (b2r c - v) <= U * v /\ 0 <= v <= 1 /\ (v = 0 \/ / 65536 <= v).
Lemma comp_div : forall a b, (0 <= a <= b)%Z -> (1 <= b <= 32768)%Z -> comp (fdiv (f_of_Z a) (f_of_Z b)) (IZR a / IZR b).
Proof.
  intros a b Ha Hb. destruct (f_of_Z_exact a ltac:(lia)) as (Va & Fa). destruct (f_of_Z_exact b ltac:(lia)) as (Vb & Fb).
  assert (1 <= IZR b <= 32768) as B1 by (split; apply IZR_le; lia). assert (0 <= IZR a <= IZR b) as A1 by (split; apply IZR_le; lia).
  assert (0 <= IZR a / IZR b <= 1) as Q.
  { split; [apply Rmult_le_pos; [lra|apply Rlt_le, Rinv_0_lt_compat; lra]|]. apply Rmult_le_reg_r with (IZR b); [lra|]. unfold Rdiv. rewrite Rmult_assoc, Rinv_l by lra. lra. }
  assert (IZR a / IZR b = 0 \/ / 65536 <= IZR a / IZR b) as S.
  { destruct (Z.eq_dec a 0) as [->|N]; [left; unfold Rdiv; ring|right].
    assert (1 <= IZR a) by (apply IZR_le; lia). assert (/ 32768 <= / IZR b) by (apply Rinv_le; lra).
    assert (1 * / IZR b <= IZR a * / IZR b) by (apply Rmult_le_compat_r; lra). unfold Rdiv. lra. }
  destruct (fdiv_spec (f_of_Z a) (f_of_Z b) Fa) as (E & F).
  - rewrite Vb. lra.
  - rewrite Va, Vb. apply big127. apply Rabs_le. lra.
  - split; [exact F|]. split; [|auto]. rewrite E, Va, Vb. destruct S as [S|S].
    + rewrite S, rnd32_id by (apply rep32_IZR; lia). rewrite Rminus_0_r, Rabs_R0. unfold U. lra.
    + pose proof (rnd32_rel (IZR a / IZR b)) as R. rewrite Rabs_pos_eq in R by lra. specialize (R ltac:(lra)). unfold U in *. lra.
Qed.

Lemma eps_close : fin (dlit 1 1000) /\ Rabs (b2r (dlit 1 1000) - / 1000) <= / 1000000000000000.
Proof.
  assert (B2SF (dlit 1 1000) = SpecFloat.S754_finite false 4611686018427388 (-62)) as E by (vm_compute; reflexivity). split.
  - unfold fin. rewrite <- is_finite_SF_B2SF, E. reflexivity.
  - rewrite <- (SF2R_B2SF 53 1024), E. unfold SF2R, F2R. cbn [Fnum Fexp Zaux.cond_Zopp].
    change (bpow radix2 (-62)) with (/ 4611686018427387904). apply Rabs_le. lra.
Qed.
Lemma offset_close : rl offset32 (999 / 1000) 1 /\ b2r offset32 = 16760439 / 16777216.
Proof.
  assert (B2SF offset32 = SpecFloat.S754_finite false 16760439 (-24)) as E by (vm_compute; reflexivity).
  destruct (const_val _ _ _ E) as (F & V). change (bpow radix2 (-24)) with (/ 16777216) in V. split; [|rewrite V; lra].
  split; [exact F|]. rewrite V. unfold U. apply Rabs_le. lra.
Qed.

Lemma lift_close : forall c v, comp c v -> rl (lift32 c) (v * (999 / 1000) + / 1000) 7.
Proof.
  intros c v (Fc & Hc & Hv & S). unfold lift32. destruct offset_close as (Ho & _). destruct eps_close as (Fe & He).
  assert (fin (fmul c offset32) /\ Rabs (b2r (fmul c offset32) - v * (999 / 1000)) <= 4 * U * (v * (999 / 1000))) as (Fm & Hm).
  { destruct S as [->|S].
    - rewrite Rmult_0_r, Rminus_0_r in Hc. assert (b2r c = 0) as Z0 by (apply Rabs_le_inv in Hc; lra).
      destruct (fmul_spec c offset32 Fc (proj1 Ho)) as (E & F); [rewrite Z0, Rmult_0_l, Rabs_R0; apply bpow_ge_0|]. split; [exact F|].
      rewrite E, Z0, Rmult_0_l, rnd32_id by (apply rep32_IZR; lia). rewrite Rmult_0_l, Rminus_0_r, Rabs_R0. lra.
    - replace 4 with (1 + 1 + 2) by ring. apply rl_mul; try lra; [|exact Ho]. split; [exact Fc|lra]. }
  destruct (d_of_f_exact _ Fm) as (Ed & Fd).
  assert (4 * U * (v * (999 / 1000)) <= / 1000000) as T by (unfold U; lra).
  pose proof Hm as Hm'. apply Rabs_le_inv in Hm'. pose proof He as He'. apply Rabs_le_inv in He'.
  assert (Rabs (b2r (d_of_f (fmul c offset32)) + b2r (dlit 1 1000)) <= 2) as B by (rewrite Ed; apply Rabs_le; lra).
  destruct (dadd_spec _ _ Fd Fe) as (Ea & Fa); [apply big1023, big127; apply Rabs_le_inv in B; apply Rabs_le; lra|].
  pose proof (rnd64_err _ 1 B ltac:(lia)) as R. rewrite <- Ea, Ed in R. change (bpow radix2 (1 - 54)) with (/ 9007199254740992) in R.
  set (s := dadd _ _) in *.
  assert (Rabs (b2r s - (v * (999 / 1000) + / 1000)) <= 5 * U * (v * (999 / 1000) + / 1000)) as D.
  { replace (b2r s - (v * (999 / 1000) + / 1000)) with ((b2r s - (b2r (fmul c offset32) + b2r (dlit 1 1000))) + ((b2r (fmul c offset32) - v * (999 / 1000)) + (b2r (dlit 1 1000) - / 1000))) by ring.
    eapply Rle_trans; [apply Rabs_triang|]. eapply Rle_trans; [apply Rplus_le_compat_l, Rabs_triang|]. unfold U in *. lra. }
  destruct (f_of_d_spec s Fa) as (E & F).
  { apply big127. apply Rabs_le_inv in D. apply Rabs_le. unfold U in *. lra. }
  split; [exact F|]. rewrite E. eapply Rle_trans; [apply rel_round; [|lra|exact D]; lra|]. unfold U. lra.
Qed.

(** ** The ten reflectances *)
Definition fl15 (n : Z) : f32 := f_of_d (dlit n 1000000000000000).
Definition fr15 (n : Z) : R := IZR n / 1000000000000000.
Definition lifted_r (v : R) : R := v * (999 / 1000) + / 1000.
Lemma zero_rl : forall n, rl (f_of_Z 0) 0 n.
Proof. intros n. destruct f0_val as (V & F). change f0 with (f_of_Z 0) in *. split; [exact F|]. rewrite V, Rminus_0_r, Rabs_R0. lra. Qed.
Lemma band_close : forall r g b vr vg vb nr ng nb, rl r vr 7 -> rl g vg 7 -> rl b vb 7 -> / 1000 <= vr <= 1 -> / 1000 <= vg <= 1 -> / 1000 <= vb <= 1 ->
  (1000000000000 <= nr <= 1000000000000000)%Z -> (1000000000000 <= ng <= 1000000000000000)%Z -> (1000000000000 <= nb <= 1000000000000000)%Z ->
  rl (band32 r g b (fl15 nr, (fl15 ng, fl15 nb))) (fr15 nr * vr + fr15 ng * vg + fr15 nb * vb) 14.
Proof.
  intros r g b vr vg vb nr ng nb Hr Hg Hb Vr Vg Vb Nr Ng Nb. unfold band32. cbn [fst snd].
  assert (forall n x v, rl x v 7 -> / 1000 <= v <= 1 -> (1000000000000 <= n <= 1000000000000000)%Z -> rl (fmul (fl15 n) x) (fr15 n * v) 11 /\ / 1000000 <= fr15 n * v <= 1) as K.
  { intros n x v Hx Hv Hn. assert (/ 1000 <= fr15 n <= 1) as Q by (unfold fr15; assert (1000000000000 <= IZR n <= 1000000000000000) by (split; apply IZR_le; lia); lra).
    assert (/ 1000 * / 1000 <= fr15 n * v <= 1 * 1) as P by (split; apply Rmult_le_compat; lra).
    split; [|lra]. replace 11 with (2 + 7 + 2) by ring. apply rl_mul; try lra; [|exact Hx]. apply lit_rl. exact Hn. }
  destruct (K nr r vr Hr Vr Nr) as (K1 & B1). destruct (K ng g vg Hg Vg Ng) as (K2 & B2). destruct (K nb b vb Hb Vb Nb) as (K3 & B3).
  assert (rl (fadd (fmul (fl15 nr) r) (fmul (fl15 ng) g)) (fr15 nr * vr + fr15 ng * vg) 12) as J1 by (replace 12 with (11 + 1) by ring; apply rl_add; auto; lra).
  assert (rl (fadd (fadd (fmul (fl15 nr) r) (fmul (fl15 ng) g)) (fmul (fl15 nb) b)) (fr15 nr * vr + fr15 ng * vg + fr15 nb * vb) 13) as J2.
  { replace 13 with (12 + 1) by ring. apply rl_add; auto; try lra. apply (rl_weak _ _ 11); auto; lra. }
  rewrite <- (Rplus_0_l (fr15 nr * vr + fr15 ng * vg + fr15 nb * vb)). replace 14 with (13 + 1) by ring. apply rl_add; auto; try lra. apply zero_rl.
Qed.

(** the largest possible reflectance of each band *)
Definition top : list R := [55/100; 561/1000; 6/10; 1023/1000; 1067/1000; 963/1000; 1024/1000; 103/100; 103/100; 103/100].

Lemma spectral_close : forall r g b vr vg vb, comp r vr -> comp g vg -> comp b vb ->
  Forall2 (fun x v => rl x v 14) (rgb_to_spectral mix64 r g b) (reflectances (vr, vg, vb)).
Proof.
  intros r g b vr vg vb Hr Hg Hb. rewrite spectral_is.
  pose proof (lift_close r vr Hr) as Lr. pose proof (lift_close g vg Hg) as Lg. pose proof (lift_close b vb Hb) as Lb.
  destruct Hr as (_ & _ & Hr & _). destruct Hg as (_ & _ & Hg & _). destruct Hb as (_ & _ & Hb & _).
  assert (forall v, 0 <= v <= 1 -> / 1000 <= lifted_r v <= 1) as L by (intros v H; unfold lifted_r; lra).
  revert Lr Lg Lb. generalize (lift32 r) (lift32 g) (lift32 b). clear r g b. intros r g b Lr Lg Lb.
  unfold reflectances, rgb_to_spectral. cbv zeta.
  unfold spectral_r_small, spectral_g_small, spectral_b_small. cbn [combine map].
  change (@nar mix64) with f_of_d. change (@dec mix64) with dlit.
  repeat (apply Forall2_cons;
    [match goal with |- rl (band32 _ _ _ (f_of_d (dlit ?n _), (f_of_d (dlit ?m _), f_of_d (dlit ?k _)))) _ _ =>
       match goal with |- rl ?x ?v _ => replace v with (fr15 n * lifted_r vr + fr15 m * lifted_r vg + fr15 k * lifted_r vb); [apply band_close; auto; lia|] end; unfold fr15, lifted_r, wgm_offset, WGM_EPSILON; cbn [mixR nar wid nadd nsub nmul ndiv nofZ dec sng dbl numR car]; lra end|]).
  apply Forall2_nil.
Qed.

Lemma reflectance_top : forall c, in_gamut c -> Forall2 (fun v t => 1 / 2000 < v <= t) (reflectances c) top.
Proof.
  intros [[r g] b] (Hr & Hg & Hb). unfold top, reflectances, rgb_to_spectral, wgm_offset, WGM_EPSILON, spectral_r_small, spectral_g_small, spectral_b_small.
  cbn [combine map mixR nar wid nadd nsub nmul nofZ dec sng dbl numR car]. repeat (apply Forall2_cons; [cbn [mixR nar wid nadd nsub nmul nofZ dec sng dbl numR car]; lra|]). apply Forall2_nil.
Qed.

(** ** One band *)
Lemma ln_near : forall x A, 0 < A -> Rabs (x - A) <= 14 * U * A -> Rabs (ln x - ln A) <= 15 * U.
Proof.
  intros x A HA H. apply Rabs_le_inv in H. assert (14 * U * A <= / 1000 * A) by (apply Rmult_le_compat_r; [lra|unfold U; lra]).
  assert (0 < x) as Hx by lra.
  assert (forall u v, 0 < u -> 0 < v -> ln u - ln v <= u / v - 1) as K.
  { intros u v Hu Hv. assert (ln u - ln v = ln (u / v)) as -> by (unfold Rdiv; rewrite ln_mult, ln_Rinv by (auto; apply Rinv_0_lt_compat; auto); ring). assert (0 < u / v) by (apply Rdiv_lt_0_compat; auto).
    pose proof (exp_ineq1_le (ln (u / v))) as Q. rewrite exp_ln in Q by auto. lra. }
  pose proof (K x A Hx HA) as K1. pose proof (K A x HA Hx) as K2.
  assert (x / A - 1 <= 14 * U) as D1 by (apply Rmult_le_reg_r with A; auto; replace ((x / A - 1) * A) with (x - A) by (field; lra); lra).
  assert (A / x - 1 <= 15 * U) as D2.
  { apply Rmult_le_reg_r with x; auto. replace ((A / x - 1) * x) with (A - x) by (field; lra).
    assert (14 * U * A <= 15 * U * x); [|lra]. unfold U in *. lra. }
  apply Rabs_le. unfold U in *. lra.
Qed.
Lemma ln2_bounds : 693 / 1000 < ln 2 < 7 / 10.
Proof. split; interval. Qed.
Lemma log2_range : forall A, 1 / 2000 < A < 107 / 100 -> -11 <= log2 A <= / 10.
Proof.
  intros A H. unfold log2. pose proof ln2_bounds as L.
  assert (ln (1 / 2000) <= ln A <= ln (107 / 100)) as [K1 K2] by (split; left; apply ln_increasing; lra).
  assert (- (761 / 100) <= ln (1 / 2000)) by interval. assert (ln (107 / 100) <= 68 / 1000) by interval.
  split; [apply Rmult_le_reg_r with (ln 2)|apply Rmult_le_reg_r with (ln 2)]; try lra; unfold Rdiv; rewrite ?Rmult_assoc, ?Rinv_l by lra; lra.
Qed.

Lemma exp_near : forall d, Rabs d <= 13 / 100000 -> Rabs (exp d - 1) <= 131 / 1000000.
Proof. intros d H. apply Rabs_le_inv in H. apply Rabs_le. split; interval. Qed.

(** the exponent of one colour *)
Lemma power_close : forall x A f s, rl x A 14 -> 1 / 2000 < A < 107 / 100 -> ap f s (4 / 10000000) -> 0 <= s <= 1 ->
  exists v p, fastpow x f = Ok v /\ fin v /\ Rabs (p - s * log2 A) <= s * (173 / 1000000) + 6 / 1000000 /\ Rabs (b2r v - two_to p) <= 15 / 100000 * two_to p.
Proof.
  intros x A f s (Fx & Hx) HA (Ff & Hf) Hs. pose proof ln2_bounds as L2. pose proof (log2_range A HA) as LA.
  assert (14 * U * A <= / 100000) as S by (unfold U; lra). pose proof Hx as Hx'. apply Rabs_le_inv in Hx'.
  destruct (fastlog_close x Fx ltac:(lra)) as (Fl & Hl).
  assert (Rabs (b2r (fastlog2 x) - log2 A) <= 173 / 1000000) as D.
  { pose proof (ln_near (b2r x) A ltac:(lra) Hx) as N.
    assert (Rabs (log2 (b2r x) - log2 A) <= 3 / 1000000) as N2.
    { unfold log2. replace (ln (b2r x) / ln 2 - ln A / ln 2) with ((ln (b2r x) - ln A) * / ln 2) by (field; lra).
      rewrite Rabs_mult, (Rabs_pos_eq (/ ln 2)) by (left; apply Rinv_0_lt_compat; lra).
      apply Rmult_le_reg_r with (ln 2); [lra|]. rewrite Rmult_assoc, Rinv_l by lra. unfold U in N. lra. }
    replace (b2r (fastlog2 x) - log2 A) with ((b2r (fastlog2 x) - log2 (b2r x)) + (log2 (b2r x) - log2 A)) by ring. eapply Rle_trans; [apply Rabs_triang|]. lra. }
  assert (Rabs (b2r f * b2r (fastlog2 x) - s * log2 A) <= s * (173 / 1000000) + 5 / 1000000) as E.
  { replace (b2r f * b2r (fastlog2 x) - s * log2 A) with ((b2r f - s) * log2 A + (b2r f - s) * (b2r (fastlog2 x) - log2 A) + s * (b2r (fastlog2 x) - log2 A)) by ring.
    eapply Rle_trans; [apply Rabs_triang|]. eapply Rle_trans; [apply Rplus_le_compat_r, Rabs_triang|]. rewrite !Rabs_mult, (Rabs_pos_eq s) by lra.
    assert (Rabs (log2 A) <= 11) by (apply Rabs_le; lra).
    assert (Rabs (b2r f - s) * Rabs (log2 A) <= 4 / 10000000 * 11) by (apply Rmult_le_compat; auto; apply Rabs_pos).
    assert (Rabs (b2r f - s) * Rabs (b2r (fastlog2 x) - log2 A) <= 4 / 10000000 * (173 / 1000000)) by (apply Rmult_le_compat; auto; apply Rabs_pos).
    assert (s * Rabs (b2r (fastlog2 x) - log2 A) <= s * (173 / 1000000)) by (apply Rmult_le_compat_l; lra). lra. }
  assert (- 11 <= s * log2 A <= / 10) as SL.
  { assert (s * -11 <= s * log2 A <= s * / 10) by (split; apply Rmult_le_compat_l; lra). lra. }
  pose proof E as E'. apply Rabs_le_inv in E'.
  assert (Rabs (b2r f * b2r (fastlog2 x)) <= bpow radix2 4) as M by (change (bpow radix2 4) with 16; apply Rabs_le; lra).
  destruct (fmul_spec f (fastlog2 x) Ff Fl) as (V & F); [eapply Rle_trans; [exact M|apply bpow_le; lia]|].
  pose proof (rnd32_err _ 4 M ltac:(lia)) as R. rewrite <- V in R. change (bpow radix2 (4 - 25)) with (/ 2097152) in R.
  assert (Rabs (b2r (fmul f (fastlog2 x)) - s * log2 A) <= s * (173 / 1000000) + 6 / 1000000) as P.
  { replace (b2r (fmul f (fastlog2 x)) - s * log2 A) with ((b2r (fmul f (fastlog2 x)) - b2r f * b2r (fastlog2 x)) + (b2r f * b2r (fastlog2 x) - s * log2 A)) by ring.
    eapply Rle_trans; [apply Rabs_triang|]. lra. }
  pose proof P as P'. apply Rabs_le_inv in P'.
  destruct (fastpow2_close (fmul f (fastlog2 x)) F ltac:(lra)) as (v & Ev & Fv & Hv).
  exists v, (b2r (fmul f (fastlog2 x))). split; [exact Ev|]. auto.
Qed.

Lemma power_two : forall A s, 0 < A -> Rpower A s = two_to (s * log2 A).
Proof. intros A s HA. unfold Rpower, two_to, log2. f_equal. field. pose proof ln2_bounds. lra. Qed.

(** relative errors of a product *)
Lemma prod_near : forall u v a b e, 0 < a -> 0 < b -> 0 <= e -> Rabs (u - a) <= e * a -> Rabs (v - b) <= e * b -> Rabs (u * v - a * b) <= (2 * e + e * e) * (a * b).
Proof.
  intros u v a b e Ha Hb He Hu Hv. replace (u * v - a * b) with ((u - a) * (v - b) + (u - a) * b + a * (v - b)) by ring.
  eapply Rle_trans; [apply Rabs_triang|]. eapply Rle_trans; [apply Rplus_le_compat_r, Rabs_triang|]. rewrite !Rabs_mult, (Rabs_pos_eq a), (Rabs_pos_eq b) by lra.
  assert (Rabs (u - a) * Rabs (v - b) <= (e * a) * (e * b)) by (apply Rmult_le_compat; auto; apply Rabs_pos).
  assert (Rabs (u - a) * b <= (e * a) * b) by (apply Rmult_le_compat_r; lra).
  assert (a * Rabs (v - b) <= a * (e * b)) by (apply Rmult_le_compat_l; lra). lra.
Qed.

Lemma mix_close : forall x y A B fa fb s, rl x A 14 -> rl y B 14 -> 1 / 2000 < A < 107 / 100 -> 1 / 2000 < B < 107 / 100 ->
  ap fa s (4 / 10000000) -> ap fb (1 - s) (4 / 10000000) -> 0 <= s <= 1 ->
  exists u v, fastpow x fa = Ok u /\ fastpow y fb = Ok v /\
    ap (fmul u v) (Rpower A s * Rpower B (1 - s)) (433 / 1000000 * (Rpower A s * Rpower B (1 - s))).
Proof.
  intros x y A B fa fb s Hx Hy HA HB Ha Hb Hs.
  destruct (power_close x A fa s Hx HA Ha Hs) as (u & p & Eu & Fu & Hp & Hu).
  destruct (power_close y B fb (1 - s) Hy HB Hb ltac:(lra)) as (v & q & Ev & Fv & Hq & Hv).
  exists u, v. split; [exact Eu|]. split; [exact Ev|].
  assert (1 / 2000 <= Rpower A s * Rpower B (1 - s) <= 107 / 100) as G.
  { pose proof (mix_between Rpower A B s ltac:(intros ? ? _; reflexivity) ltac:(lra) ltac:(lra) Hs) as K. unfold Rmin, Rmax in K. destruct (Rle_dec A B); lra. }
  set (g := Rpower A s * Rpower B (1 - s)) in *.
  assert (Rabs (two_to p * two_to q - g) <= 131 / 1000000 * g) as D1.
  { unfold g. rewrite !power_two by lra. rewrite <- !two_to_plus. set (e := s * log2 A + (1 - s) * log2 B).
    replace (p + q) with ((p + q - e) + e) by ring. rewrite two_to_plus. replace (two_to (p + q - e) * two_to e - two_to e) with ((two_to (p + q - e) - 1) * two_to e) by ring.
    rewrite Rabs_mult, (Rabs_pos_eq (two_to e)) by (left; apply two_to_pos). apply Rmult_le_compat_r; [left; apply two_to_pos|].
    unfold two_to. apply exp_near. rewrite Rabs_mult. pose proof ln2_bounds as L2. rewrite (Rabs_pos_eq (ln 2)) by lra.
    assert (Rabs (p + q - e) <= 185 / 1000000) as K.
    { unfold e. replace (p + q - (s * log2 A + (1 - s) * log2 B)) with ((p - s * log2 A) + (q - (1 - s) * log2 B)) by ring. eapply Rle_trans; [apply Rabs_triang|]. lra. }
    assert (Rabs (p + q - e) * ln 2 <= 185 / 1000000 * (7 / 10)) by (apply Rmult_le_compat; try lra; apply Rabs_pos). lra. }
  pose proof (prod_near (b2r u) (b2r v) (two_to p) (two_to q) (15 / 100000) (two_to_pos p) (two_to_pos q) ltac:(lra) Hu Hv) as D2.
  set (h := two_to p * two_to q) in *. apply Rabs_le_inv in D1. 
  assert (Rabs (b2r u * b2r v - g) <= 432 / 1000000 * g) as D3.
  { replace (b2r u * b2r v - g) with ((b2r u * b2r v - h) + (h - g)) by ring. eapply Rle_trans; [apply Rabs_triang|].
    assert (Rabs (h - g) <= 131 / 1000000 * g) by (apply Rabs_le; lra). lra. }
  pose proof D3 as D3'. apply Rabs_le_inv in D3'.
  destruct (fmul_spec u v Fu Fv) as (E & F).
  { apply big127. apply Rabs_le. lra. }
  split; [exact F|]. rewrite E. pose proof (rnd32_rel (b2r u * b2r v)) as R. rewrite Rabs_pos_eq in R by lra. specialize (R ltac:(lra)).
  replace (rnd32 (b2r u * b2r v) - g) with ((rnd32 (b2r u * b2r v) - b2r u * b2r v) + (b2r u * b2r v - g)) by ring. eapply Rle_trans; [apply Rabs_triang|].
  unfold U in R. lra.
Qed.

(** ** All bands, and back to a colour *)
Lemma bands_close : forall fa fb s, ap fa s (4 / 10000000) -> ap fb (1 - s) (4 / 10000000) -> 0 <= s <= 1 ->
  forall la As lb Bs, Forall2 (fun x v => rl x v 14) la As -> Forall2 (fun x v => rl x v 14) lb Bs -> length As = length Bs ->
  Forall (fun x => 1 / 2000 < x < 107 / 100) As -> Forall (fun x => 1 / 2000 < x < 107 / 100) Bs ->
  exists r, mix_bands (combine la lb) fa fb = Ok r /\
    Forall2 (fun w g => ap w g (433 / 1000000 * g)) r (map (fun p => Rpower (fst p) s * Rpower (snd p) (1 - s)) (combine As Bs)).
Proof.
  intros fa fb s Ha Hb Hs la As lb Bs HA. revert lb Bs. induction HA as [|x A la As Hx HA IH]; intros lb Bs HB L RA RB.
  - exists []. cbn. split; [reflexivity|constructor].
  - destruct HB as [|y B lb Bs Hy HB]; [discriminate L|].
    inversion RA as [|? ? R1 RA']; subst. inversion RB as [|? ? R2 RB']; subst.
    destruct (IH lb Bs HB ltac:(cbn in L; lia) RA' RB') as (r & E & Fr).
    destruct (mix_close x y A B fa fb s Hx Hy R1 R2 Ha Hb Hs) as (u & v & Eu & Ev & Hw).
    exists (fmul u v :: r). cbn [combine mix_bands]. rewrite Eu. cbn [obind]. rewrite Ev. cbn [obind]. rewrite E. cbn [obind]. split; [reflexivity|].
    cbn [map fst snd]. constructor; auto.
Qed.

Lemma bands_top : forall s As Bs ts, 0 <= s <= 1 -> Forall2 (fun v t => 1 / 2000 < v <= t) As ts -> Forall2 (fun v t => 1 / 2000 < v <= t) Bs ts ->
  Forall2 (fun g t => 0 < g <= t) (map (fun p => Rpower (fst p) s * Rpower (snd p) (1 - s)) (combine As Bs)) ts.
Proof.
  intros s As Bs ts Hs HA. revert Bs. induction HA as [|A t As ts HA' HA IH]; intros Bs HB; inversion HB as [|B ? Bs' ? HB' HB'']; subst; [constructor|].
  cbn [combine map fst snd]. constructor; [|apply IH; exact HB''].
  pose proof (mix_between Rpower A B s ltac:(intros ? ? _; reflexivity) ltac:(lra) ltac:(lra) Hs) as K. unfold Rmin, Rmax in K. destruct (Rle_dec A B); lra.
Qed.

(** the error of one colour component, from the coefficients and the largest reflectances *)
Fixpoint budget (zs : list Z) (ts : list R) : R :=
  match zs, ts with
  | z :: zs, t :: ts => fr15 (Z.abs z) * (433 / 1000000 * t) + 13 / 10000000 + budget zs ts
  | _, _ => 0
  end.
Definition dotR (l : list (R * R)) (a : R) : R := fold_left (fun acc p => acc + fst p * snd p) l a.
Lemma fr15_abs : forall z, Rabs (fr15 z) = fr15 (Z.abs z).
Proof. intros z. unfold fr15, Rdiv. rewrite Rabs_mult, (Rabs_pos_eq (/ _)) by lra. rewrite abs_IZR. reflexivity. Qed.
Lemma dot_close : forall zs ws gs ts acc a e k, Forall (fun z => Z.abs z <= 1000000000000000)%Z zs ->
  Forall2 (fun w g => ap w g (433 / 1000000 * g)) ws gs -> Forall2 (fun g t => 0 < g <= t) gs ts -> Forall (fun t => t <= 107 / 100) ts ->
  length zs = length ws -> ap acc a e -> 0 <= e -> Rabs a + e <= k -> k + 2 * INR (length zs) <= 30 ->
  ap (fold_left (fun acc p => fadd acc (fmul (fst p) (snd p))) (combine (map fl15 zs) ws) acc) (dotR (combine (map fr15 zs) gs) a) (e + budget zs ts) /\
  Rabs (dotR (combine (map fr15 zs) gs) a) <= 30.
Proof.
  induction zs as [|z zs IH]; intros ws gs ts acc a e k Fz Fw Fg Ft L Ha He Hk Kl.
  - cbn [map combine fold_left budget dotR]. rewrite Rplus_0_r. split; [exact Ha|]. unfold dotR. cbn [fold_left]. cbn [length INR] in Kl. lra.
  - destruct ws as [|w ws]; [discriminate L|]. inversion Fw as [|? g ? gs' Hw Fw']; subst. inversion Fg as [|? t ? ts' Hg Fg']; subst.
    inversion Fz as [|? ? Hz Fz']; subst. inversion Ft as [|? ? Ht Ft']; subst.
    cbn [length] in Kl. rewrite S_INR in Kl. pose proof (pos_INR (length zs)) as P.
    assert (ap (fmul (fl15 z) w) (fr15 z * g) (fr15 (Z.abs z) * (433 / 1000000 * t) + 3 / 10000000)) as Hm.
    { pose proof (lit_ap z Hz) as Hl. change (ap (fl15 z) (fr15 z) (/ 8388608)) in Hl.
      assert (Rabs (fr15 z) = fr15 (Z.abs z)) as AE by apply fr15_abs.
      assert (0 <= fr15 (Z.abs z) <= 1) as AB.
      { unfold fr15. assert (0 <= IZR (Z.abs z) <= 1000000000000000) by (split; apply IZR_le; lia). lra. }
      assert (0 <= fr15 (Z.abs z) * g <= 1 * t) as GB by (split; [apply Rmult_le_pos; lra|apply Rmult_le_compat; lra]).
      assert (fr15 (Z.abs z) * g <= fr15 (Z.abs z) * t) by (apply Rmult_le_compat_l; lra).
      eapply ap_weak; [apply (ap_mul 1 (fr15 (Z.abs z) + / 8388608) t); [exact Hl|exact Hw|rewrite AE; lra|rewrite Rabs_pos_eq; lra|lia|]|].
      + rewrite Rabs_mult, AE, (Rabs_pos_eq g) by lra. change (bpow radix2 1) with 2. lra.
      + change (bpow radix2 (1 - 25)) with (/ 16777216). lra. }
    set (em := fr15 (Z.abs z) * (433 / 1000000 * t) + 3 / 10000000) in *.
    assert (0 <= em <= 1 / 1000) as Em.
    { unfold em. assert (0 <= fr15 (Z.abs z) <= 1) as AB.
      { unfold fr15. assert (0 <= IZR (Z.abs z) <= 1000000000000000) by (split; apply IZR_le; lia). lra. }
      assert (0 <= fr15 (Z.abs z) * (433 / 1000000 * t) <= 1 * (433 / 1000000 * t)) by (split; [apply Rmult_le_pos; lra|apply Rmult_le_compat_r; lra]). lra. }
    assert (Rabs (fr15 z * g) <= 107 / 100) as Gm.
    { rewrite Rabs_mult, fr15_abs, (Rabs_pos_eq g) by lra.
      assert (0 <= fr15 (Z.abs z) <= 1) as AB.
      { unfold fr15. assert (0 <= IZR (Z.abs z) <= 1000000000000000) by (split; apply IZR_le; lia). lra. }
      assert (fr15 (Z.abs z) * g <= 1 * (107 / 100)) by (apply Rmult_le_compat; lra). lra. }
    assert (Rabs (a + fr15 z * g) <= Rabs a + 107 / 100) as Sm by (eapply Rle_trans; [apply Rabs_triang|lra]).
    assert (ap (fadd acc (fmul (fl15 z) w)) (a + fr15 z * g) (e + em + / 1048576)) as Hs.
    { eapply ap_weak; [apply (ap_add 5); [exact Ha|exact Hm|lia|]|].
      - change (bpow radix2 5) with 32. lra.
      - change (bpow radix2 (5 - 25)) with (/ 1048576). lra. }
    cbn [map combine fold_left fst snd]. unfold dotR. cbn [fold_left fst snd].
    fold (dotR (combine (map fr15 zs) gs') (a + fr15 z * g)).
    destruct (IH ws gs' ts' _ _ _ (k + 2) Fz' Fw' Fg' Ft' ltac:(cbn in L; lia) Hs ltac:(lra) ltac:(lra) ltac:(lra)) as (R1 & R2).
    split; [|exact R2]. eapply ap_weak; [exact R1|]. cbn [budget]. unfold em. lra.
Qed.

Lemma clampR_is : forall x : R, (clamp01d mixR x : R) = Rmax 0 (Rmin 1 x).
Proof. exact clamp01_is. Qed.
Lemma clamp_near : forall x y e, Rabs (x - y) <= e -> Rabs (Rmax 0 (Rmin 1 x) - Rmax 0 (Rmin 1 y)) <= e.
Proof.
  intros x y e H. apply Rabs_le_inv in H. apply Rabs_le. unfold Rmax, Rmin.
  destruct (Rle_dec 1 x); destruct (Rle_dec 1 y); repeat (match goal with |- context [Rle_dec 0 ?u] => destruct (Rle_dec 0 u) end); lra.
Qed.
Lemma out_close : forall (t : f32) T e, ap t T e -> Rabs T <= 30 -> 0 <= e <= 1 ->
  ap (clamp01d mix64 (ddiv (dsub (d_of_f t) (dlit 1 1000)) (d_of_f offset32))) (Rmax 0 (Rmin 1 ((T - 1 / 1000) / (1 - 1 / 1000)))) (1002 / 1000 * e + 2 / 1000000).
Proof.
  intros t T e (Ft & Ht) BT He. destruct (d_of_f_exact t Ft) as (Et & Fd). destruct eps_close as (Fe & Hep).
  destruct offset_close as ((Fo & _) & Vo). destruct (d_of_f_exact _ Fo) as (Eo & Fdo). rewrite Vo in Eo.
  apply Rabs_le_inv in Ht. apply Rabs_le_inv in BT. apply Rabs_le_inv in Hep.
  assert (Rabs (b2r (d_of_f t) - b2r (dlit 1 1000)) <= bpow radix2 5) as B1 by (rewrite Et; change (bpow radix2 5) with 32; apply Rabs_le; lra).
  destruct (dsub_spec (d_of_f t) (dlit 1 1000) Fd Fe) as (Es & Fs); [eapply Rle_trans; [exact B1|apply bpow_le; lia]|].
  pose proof (rnd64_err _ 5 B1 ltac:(lia)) as R1. rewrite <- Es, Et in R1. change (bpow radix2 (5 - 54)) with (/ 562949953421312) in R1. apply Rabs_le_inv in R1.
  set (u := dsub (d_of_f t) (dlit 1 1000)) in *. clearbody u.
  assert (Rabs (b2r u / b2r (d_of_f offset32)) <= bpow radix2 6) as B2.
  { rewrite Eo. change (bpow radix2 6) with 64. apply Rabs_le. lra. }
  destruct (ddiv_spec u (d_of_f offset32) Fs) as (Eq & Fq); [rewrite Eo; lra|eapply Rle_trans; [exact B2|apply bpow_le; lia]|].
  pose proof (rnd64_err _ 6 B2 ltac:(lia)) as R2. rewrite <- Eq, Eo in R2. change (bpow radix2 (6 - 54)) with (/ 281474976710656) in R2. apply Rabs_le_inv in R2.
  set (q := ddiv u (d_of_f offset32)) in *. clearbody q.
  assert (Rabs (b2r q - (T - 1 / 1000) / (1 - 1 / 1000)) <= 1002 / 1000 * e + 15 / 10000000) as D.
  { replace ((T - 1 / 1000) / (1 - 1 / 1000)) with ((T - 1 / 1000) * (1000 / 999)) by field.
    replace (b2r u / (16760439 / 16777216)) with (b2r u * (16777216 / 16760439)) in R2 by field. apply Rabs_le. lra. }
  unfold clamp01d. change (ap (f_of_d (if dlt (d_of_Z 1) q then d_of_Z 1 else if dlt q (d_of_Z 0) then d_of_Z 0 else q)) (Rmax 0 (Rmin 1 ((T - 1 / 1000) / (1 - 1 / 1000)))) (1002 / 1000 * e + 2 / 1000000)).
  set (d := if dlt (d_of_Z 1) q then d_of_Z 1 else if dlt q (d_of_Z 0) then d_of_Z 0 else q).
  assert (fin d /\ b2r d = Rmax 0 (Rmin 1 (b2r q))) as (Fd' & Vd).
  { destruct (d_of_Z_exact 1 ltac:(lia)) as (V1 & F1). destruct (d_of_Z_exact 0 ltac:(lia)) as (V0 & F0).
    unfold d. rewrite !dlt_spec, V1, V0 by auto. unfold Rmax, Rmin. destruct (Rle_dec 1 (b2r q)) as [Q|Q].
    - destruct (Rle_dec 0 1); [|lra]. destruct (Rlt_bool_spec 1 (b2r q)); [auto|]. destruct (Rlt_bool_spec (b2r q) 0); [lra|]. split; auto; lra.
    - destruct (Rlt_bool_spec 1 (b2r q)); [lra|]. destruct (Rlt_bool_spec (b2r q) 0); destruct (Rle_dec 0 (b2r q)); solve [lra|split; auto; lra]. }
  clearbody d. pose proof (clamp_near _ _ _ D) as C. rewrite <- Vd in C.
  assert (0 <= b2r d <= 1) as Bd.
  { rewrite Vd. unfold Rmax, Rmin. destruct (Rle_dec 1 (b2r q)); [destruct (Rle_dec 0 1); lra|]. destruct (Rle_dec 0 (b2r q)); lra. }
  destruct (f_of_d_spec d Fd') as (E & F); [apply big127; apply Rabs_le; lra|].
  assert (Rabs (b2r d) <= bpow radix2 0) as B0 by (change (bpow radix2 0) with 1; apply Rabs_le; lra).
  pose proof (rnd32_err _ 0 B0 ltac:(lia)) as R3. change (bpow radix2 (0 - 25)) with (/ 33554432) in R3.
  split; [exact F|]. rewrite E.
  match goal with |- Rabs (_ - ?w) <= _ => replace (rnd32 (b2r d) - w) with ((rnd32 (b2r d) - b2r d) + (b2r d - w)) by ring end.
  eapply Rle_trans; [apply Rabs_triang|]. lra.
Qed.

Definition row_r : list Z := [26595621243689; 49779426257903; 22449850859496; -218453689278271; -256894883201278; 445881722194840; 772365886289756; 194498761382537; 14038157587820; 7687264480513]%Z.
Definition row_g : list Z := [-32601672674412; -61021043498478; -52490001018404; 206659098273522; 572496335158169; 317837248815438; -21216624031211; -19387668756117; -1521339050858; -835181622534]%Z.
Definition row_b : list Z := [339475473216284; 635401374177222; 771520797089589; 113222640692379; -55251113343776; -48222578468680; -12966666339586; -1523814504223; -94718948810; -51604594741]%Z.
Lemma row_r_is : T_matrix_r mix64 = map fl15 row_r /\ T_matrix_r mixR = map fr15 row_r. Proof. split; reflexivity. Qed.
Lemma row_g_is : T_matrix_g mix64 = map fl15 row_g /\ T_matrix_g mixR = map fr15 row_g. Proof. split; reflexivity. Qed.
Lemma row_b_is : T_matrix_b mix64 = map fl15 row_b /\ T_matrix_b mixR = map fr15 row_b. Proof. split; reflexivity. Qed.

Definition within (e : R) (c : f32 * f32 * f32) (c' : colour) : Prop :=
  let '(x, y, z) := c in let '(x', y', z') := c' in ap x x' e /\ ap y y' e /\ ap z z' e.

Lemma F2_length : forall {A B : Type} (P : A -> B -> Prop) l k, Forall2 P l k -> length l = length k.
Proof. intros A B P l k H. induction H; cbn; congruence. Qed.

Lemma to_rgb_close : forall ws gs, Forall2 (fun w g => ap w g (433 / 1000000 * g)) ws gs -> Forall2 (fun g t => 0 < g <= t) gs top ->
  within (9 / 10000) (spectral_to_rgb mix64 ws) (seen gs).
Proof.
  intros ws gs Fw Fg.
  assert (Forall (fun t => t <= 107 / 100) top) as Ft by (unfold top; repeat (apply Forall_cons; [lra|]); apply Forall_nil).
  assert (length ws = 10%nat) as L by (apply F2_length in Fw; apply F2_length in Fg; rewrite Fw, Fg; reflexivity).
  assert (forall zs, length zs = 10%nat -> Forall (fun z => Z.abs z <= 1000000000000000)%Z zs -> budget zs top <= 88 / 100000 -> 0 <= budget zs top ->
    ap (clamp01d mix64 (ddiv (dsub (d_of_f (dot mix64 (map fl15 zs) ws)) (dlit 1 1000)) (d_of_f offset32)))
       (clamp01d mixR ((dot mixR (map fr15 zs) gs - 1 / 1000) / (1 - 1 / 1000))) (9 / 10000)) as K.
  { intros zs Lz Fz Bz Pz. rewrite clampR_is.
    destruct (dot_close zs ws gs top (f_of_Z 0) 0 0 0 Fz Fw Fg Ft ltac:(lia)) as (D1 & D2).
    - destruct f0_val as (V & F). apply ap_exact; auto.
    - lra.
    - rewrite Rabs_R0. lra.
    - rewrite Lz. cbn [INR]. lra.
    - rewrite Rplus_0_l in D1. eapply ap_weak; [eapply out_close; [exact D1|exact D2|lra]|lra]. }
  assert (forall zs, forallb (fun z => (Z.abs z <=? 1000000000000000)%Z) zs = true -> Forall (fun z => (Z.abs z <= 1000000000000000)%Z) zs) as Q.
  { intros zs H. apply Forall_forall. intros z I. rewrite forallb_forall in H. apply Z.leb_le. auto. }
  unfold within, seen, spectral_to_rgb. cbv zeta.
  rewrite (proj1 row_r_is), (proj2 row_r_is), (proj1 row_g_is), (proj2 row_g_is), (proj1 row_b_is), (proj2 row_b_is).
  split; [|split]; apply K; try reflexivity; try (apply Q; reflexivity); unfold row_r, row_g, row_b, top; cbn [budget Z.abs]; unfold fr15; lra.
Qed.

(** ** The whole mixing *)
Definition part (a b : Z) : R := IZR a / IZR b.
Lemma share_close : forall oa D ca, (0 <= oa <= D)%Z -> (1 <= D <= 32768)%Z -> (0 <= ca <= 32768)%Z ->
  let fa := fmul (fdiv (f_of_Z oa) (f_of_Z D)) (fdiv (f_of_Z ca) (f_of_Z 32768)) in
  let s := part oa D * part ca 32768 in
  0 <= s <= 1 /\ ap fa s (3 / 10000000) /\ ap (f_of_d (dsub (d_of_Z 1) (d_of_f fa))) (1 - s) (4 / 10000000).
Proof.
  intros oa D ca Ha HD Hc fa s.
  destruct (comp_div oa D Ha HD) as (F1 & E1 & R1 & _). destruct (comp_div ca 32768 ltac:(lia) ltac:(lia)) as (F2 & E2 & R2 & _).
  fold (part oa D) in *. fold (part ca 32768) in *.
  assert (ap (fdiv (f_of_Z oa) (f_of_Z D)) (part oa D) U) as A1 by (split; [exact F1|unfold U in *; lra]).
  assert (ap (fdiv (f_of_Z ca) (f_of_Z 32768)) (part ca 32768) U) as A2 by (split; [exact F2|unfold U in *; lra]).
  assert (0 <= s <= 1 * 1) as Hs by (unfold s; split; [apply Rmult_le_pos; lra|apply Rmult_le_compat; lra]).
  assert (ap fa s (3 / 10000000)) as Hfa.
  { eapply ap_weak; [apply (ap_mul 1 (1 + U) 1); [exact A1|exact A2|rewrite Rabs_pos_eq by lra; unfold U; lra|rewrite Rabs_pos_eq; lra|lia|]|].
    - fold s. rewrite (Rabs_pos_eq s) by lra. change (bpow radix2 1) with 2. unfold U. lra.
    - change (bpow radix2 (1 - 25)) with (/ 16777216). unfold U. lra. }
  split; [lra|]. split; [exact Hfa|]. destruct Hfa as (Ff & Hf). clearbody fa.
  destruct (d_of_f_exact fa Ff) as (Ex & Fd). destruct (d_of_Z_exact 1 ltac:(lia)) as (V1 & F1').
  pose proof Hf as Hf'. apply Rabs_le_inv in Hf'.
  assert (Rabs (b2r (d_of_Z 1) - b2r (d_of_f fa)) <= bpow radix2 1) as B by (rewrite V1, Ex; change (bpow radix2 1) with 2; apply Rabs_le; lra).
  destruct (dsub_spec (d_of_Z 1) (d_of_f fa) F1' Fd) as (Es & Fs); [eapply Rle_trans; [exact B|apply bpow_le; lia]|].
  pose proof (rnd64_err _ 1 B ltac:(lia)) as R64. rewrite <- Es, V1, Ex in R64. change (bpow radix2 (1 - 54)) with (/ 9007199254740992) in R64.
  set (w := dsub _ _) in *. clearbody w. apply Rabs_le_inv in R64.
  assert (Rabs (b2r w) <= bpow radix2 1) as Bw by (change (bpow radix2 1) with 2; apply Rabs_le; lra).
  destruct (f_of_d_spec w Fs) as (E & F); [eapply Rle_trans; [exact Bw|apply bpow_le; lia]|].
  pose proof (rnd32_err _ 1 Bw ltac:(lia)) as R32. rewrite <- E in R32. change (bpow radix2 (1 - 25)) with (/ 16777216) in R32. apply Rabs_le_inv in R32.
  split; [exact F|]. apply Rabs_le. lra.
Qed.

Definition brush_c (c : Blend.rgb) : colour := (part (cr c) 32768, part (cg c) 32768, part (cb c) 32768).
Definition canvas_c (p : pixel) : colour := (part (pr p) (pa p), part (pg p) (pa p), part (pb p) (pa p)).
Lemma part_range : forall a b, (0 <= a <= b)%Z -> (1 <= b)%Z -> 0 <= part a b <= 1.
Proof.
  intros a b Ha Hb. unfold part. assert (1 <= IZR b) by (apply IZR_le; lia). assert (0 <= IZR a <= IZR b) by (split; apply IZR_le; lia).
  split; [apply Rmult_le_pos; [lra|apply Rlt_le, Rinv_0_lt_compat; lra]|]. apply Rmult_le_reg_r with (IZR b); [lra|]. unfold Rdiv. rewrite Rmult_assoc, Rinv_l by lra. lra.
Qed.

Lemma spectral_mix_close : forall col p oa ob ca, (0 <= cr col <= ONE)%Z -> (0 <= cg col <= ONE)%Z -> (0 <= cb col <= ONE)%Z ->
  (0 <= pr p <= pa p)%Z -> (0 <= pg p <= pa p)%Z -> (0 <= pb p <= pa p)%Z -> (1 <= pa p <= ONE)%Z ->
  (0 <= oa)%Z -> (0 <= ob)%Z -> (oa + ob * pa p / ONE <= ONE)%Z -> (ob <= ONE)%Z -> (0 <= ca <= ONE)%Z -> (1 <= oa + ob * pa p / ONE)%Z ->
  exists c, spectral_mix col p oa ob ca = Ok c /\
    within (9 / 10000) c (seen (mixture Rpower (brush_c col) (canvas_c p) (part oa (oa + ob * pa p / ONE) * part ca ONE))).
Proof.
  intros col p oa ob ca Cr Cg Cb Pr Pg Pb Pa Oa Ob Su Ob' Ca D. change ONE with 32768%Z in *.
  assert (0 <= ob * pa p / 32768)%Z as Q by (apply Z.div_pos; nia).
  unfold spectral_mix. cbv zeta. change ONE with 32768%Z.
  rewrite (u32_small (ob * pa p)) by nia. rewrite (u32_small (oa + _)) by lia.
  destruct (share_close oa (oa + ob * pa p / 32768) ca ltac:(lia) ltac:(lia) Ca) as (Hs & Ha & Hb).
  set (fa := fmul _ _) in *. set (s := part oa (oa + ob * pa p / 32768) * part ca 32768) in *. clearbody fa s.
  assert (in_gamut (brush_c col)) as Ga by (unfold brush_c, in_gamut; repeat split; apply part_range; lia).
  assert (in_gamut (canvas_c p)) as Gb by (unfold canvas_c, in_gamut; repeat split; apply part_range; lia).
  pose proof (spectral_close _ _ _ _ _ _ (comp_div (cr col) 32768 ltac:(lia) ltac:(lia)) (comp_div (cg col) 32768 ltac:(lia) ltac:(lia)) (comp_div (cb col) 32768 ltac:(lia) ltac:(lia))) as Sa.
  pose proof (spectral_close _ _ _ _ _ _ (comp_div (pr p) (pa p) ltac:(lia) ltac:(lia)) (comp_div (pg p) (pa p) ltac:(lia) ltac:(lia)) (comp_div (pb p) (pa p) ltac:(lia) ltac:(lia))) as Sb.
  change (IZR (cr col) / IZR 32768, IZR (cg col) / IZR 32768, IZR (cb col) / IZR 32768) with (brush_c col) in Sa.
  change (IZR (pr p) / IZR (pa p), IZR (pg p) / IZR (pa p), IZR (pb p) / IZR (pa p)) with (canvas_c p) in Sb.
  destruct (reflectance_range _ Ga) as (La & Ra). destruct (reflectance_range _ Gb) as (Lb & Rb).
  assert (ap fa s (4 / 10000000)) as Ha' by (apply (ap_weak _ _ _ _ Ha); lra).
  destruct (bands_close fa _ s Ha' Hb Hs _ _ _ _ Sa Sb ltac:(rewrite La, Lb; reflexivity) Ra Rb) as (r & E & Fr).
  match goal with |- context [mix_bands ?l ?a ?b] => replace (mix_bands l a b) with (Ok r) by (symmetry; exact E) end.
  cbn [obind]. eexists. split; [reflexivity|]. apply to_rgb_close; [exact Fr|].
  apply bands_top; [exact Hs| |]; apply reflectance_top; auto.
Qed.
