(** Rounding error of the interpolation formula in C float arithmetic. *)
From Verif Require Import Base F32 F32Proofs Arith Mapping.
From Coq Require Import Reals Lra Psatz.
From Flocq Require Import Core.Core IEEE754.BinarySingleNaN.
Local Open Scope R_scope.

Notation uu := (/ 16777216).
Definition eta : R := bpow radix2 (-150).

Lemma eta_pos : 0 < eta. Proof. apply bpow_gt_0. Qed.

Lemma abs_mul_le : forall y Y a, Rabs y <= Y -> Rabs (y * a) <= Y * Rabs a.
Proof. intros. rewrite Rabs_mult. apply Rmult_le_compat_r; [apply Rabs_pos|auto]. Qed.

Lemma interp_num : forall a b d y0 y1 Y h A B P1 P2 S,
  0 <= a -> 0 <= b -> a + b = d -> Rabs y0 <= Y -> Rabs y1 <= Y -> 0 < h -> h <= d * / 1073741824 ->
  Rabs (A - a) <= a * uu + h -> Rabs (B - b) <= b * uu + h ->
  Rabs (P1 - y1 * A) <= Rabs (y1 * A) * uu + h -> Rabs (P2 - y0 * B) <= Rabs (y0 * B) * uu + h ->
  Rabs (S - (P1 + P2)) <= Rabs (P1 + P2) * uu + h ->
  Rabs (y1 * a + y0 * b) <= Y * d /\
  Rabs (S - (y1 * a + y0 * b)) <= (33 / 10) * uu * (Y * d) + 4 * h.
Proof.
  intros a b d y0 y1 Y h A B P1 P2 S Ha Hb Hd H0 H1 Hh Hhd HA HB HP1 HP2 HS.
  assert (0 <= Y) as HY by (eapply Rle_trans; [apply Rabs_pos|exact H0]).
  assert (Rabs A <= a + a * uu + h) as A1.
  { replace A with ((A - a) + a) by ring. eapply Rle_trans; [apply Rabs_triang|]. rewrite (Rabs_pos_eq a) by auto. lra. }
  assert (Rabs B <= b + b * uu + h) as B1.
  { replace B with ((B - b) + b) by ring. eapply Rle_trans; [apply Rabs_triang|]. rewrite (Rabs_pos_eq b) by auto. lra. }
  pose proof (abs_mul_le y1 Y A H1) as M1. pose proof (abs_mul_le y0 Y B H0) as M0.
  pose proof (abs_mul_le y1 Y (A - a) H1) as M3. pose proof (abs_mul_le y0 Y (B - b) H0) as M4.
  pose proof (abs_mul_le y1 Y a H1) as M5. pose proof (abs_mul_le y0 Y b H0) as M6.
  rewrite (Rabs_pos_eq a) in M5 by auto. rewrite (Rabs_pos_eq b) in M6 by auto.
  assert (Y * Rabs A <= Y * a + Y * a * uu + Y * h) as A2.
  { replace (Y * a + Y * a * uu + Y * h) with (Y * (a + a * uu + h)) by ring. apply Rmult_le_compat_l; auto. }
  assert (Y * Rabs B <= Y * b + Y * b * uu + Y * h) as B2.
  { replace (Y * b + Y * b * uu + Y * h) with (Y * (b + b * uu + h)) by ring. apply Rmult_le_compat_l; auto. }
  assert (Y * Rabs (A - a) <= Y * a * uu + Y * h) as A3.
  { replace (Y * a * uu + Y * h) with (Y * (a * uu + h)) by ring. apply Rmult_le_compat_l; auto. }
  assert (Y * Rabs (B - b) <= Y * b * uu + Y * h) as B3.
  { replace (Y * b * uu + Y * h) with (Y * (b * uu + h)) by ring. apply Rmult_le_compat_l; auto. }
  assert (Y * h <= Y * d * / 1073741824) as Yh.
  { replace (Y * d * / 1073741824) with (Y * (d * / 1073741824)) by ring. apply Rmult_le_compat_l; auto. }
  assert (Y * a + Y * b = Y * d) as Yd by (rewrite <- Hd; ring).
  set (W := Y * d) in *. set (Ya := Y * a) in *. set (Yb := Y * b) in *. set (Yh' := Y * h) in *.
  assert (0 <= Ya) by (apply Rmult_le_pos; auto). assert (0 <= Yb) by (apply Rmult_le_pos; auto).
  assert (0 <= Yh') by (apply Rmult_le_pos; lra).
  set (N := y1 * a + y0 * b).
  assert (Rabs N <= W) as HN by (unfold N; eapply Rle_trans; [apply Rabs_triang|]; lra).
  split; [exact HN|].
  set (EP := P1 + P2 - N).
  assert (Rabs EP <= (21 / 10) * uu * W + 2 * h) as HEP.
  { unfold EP, N. replace (P1 + P2 - (y1 * a + y0 * b)) with ((P1 - y1 * A) + y1 * (A - a) + ((P2 - y0 * B) + y0 * (B - b))) by ring.
    eapply Rle_trans; [apply Rabs_triang|].
    pose proof (Rabs_triang (P1 - y1 * A) (y1 * (A - a))). pose proof (Rabs_triang (P2 - y0 * B) (y0 * (B - b))).
    assert (Rabs (y1 * A) * uu <= (Ya + Ya * uu + Yh') * uu) by (apply Rmult_le_compat_r; lra).
    assert (Rabs (y0 * B) * uu <= (Yb + Yb * uu + Yh') * uu) by (apply Rmult_le_compat_r; lra).
    lra. }
  assert (Rabs (P1 + P2) <= W + ((21 / 10) * uu * W + 2 * h)) as HPP.
  { replace (P1 + P2) with (EP + N) by (unfold EP; ring). eapply Rle_trans; [apply Rabs_triang|]. lra. }
  replace (S - N) with ((S - (P1 + P2)) + EP) by (unfold EP; ring).
  eapply Rle_trans; [apply Rabs_triang|].
  assert (Rabs (P1 + P2) * uu <= (W + ((21 / 10) * uu * W + 2 * h)) * uu) by (apply Rmult_le_compat_r; lra).
  lra.
Qed.

Lemma interp_quot : forall d Y h N S D r,
  0 < d -> 0 <= Y -> 0 < h -> h <= d * / 1073741824 ->
  Rabs N <= Y * d -> Rabs (S - N) <= (33 / 10) * uu * (Y * d) + 4 * h ->
  Rabs (D - d) <= d * uu + h -> Rabs (r - S / D) <= Rabs (S / D) * uu + h ->
  0 < D /\ Rabs (S / D) <= 2 * Y + 5 * (h / d) /\ Rabs (r - N / d) <= 6 * uu * Y + 8 * (h / d) + h.
Proof.
  intros d Y h N S D r Hd HY Hh Hhd HN HS HD Hr.
  assert (D >= d * (1 - / 1000000)) as D1.
  { apply Rabs_le_inv in HD. lra. }
  assert (0 < D) as D0 by lra. split; auto.
  set (v := N / d). assert (N = v * d) as EN by (unfold v; field; lra).
  assert (Rabs v <= Y) as Hv.
  { unfold v, Rdiv. rewrite Rabs_mult, (Rabs_pos_eq (/ d)) by (left; apply Rinv_0_lt_compat; auto).
    apply Rmult_le_reg_r with d; auto. rewrite Rmult_assoc, Rinv_l, Rmult_1_r by lra. auto. }
  set (k := h / d). assert (h = k * d) as Eh by (unfold k; field; lra).
  assert (0 < k) as K0 by (unfold k; apply Rdiv_lt_0_compat; auto).
  set (q := S / D) in *. assert (S = q * D) as ES by (unfold q; field; lra).
  assert (Rabs (q - v) * D <= (45 / 10 * uu * Y + 5 * k) * D) as Q.
  { rewrite <- (Rabs_pos_eq D) at 1 by lra. rewrite <- Rabs_mult.
    replace ((q - v) * D) with ((S - N) - v * (D - d)) by (rewrite ES, EN; ring).
    eapply Rle_trans; [apply Rabs_triang|]. rewrite Rabs_Ropp.
    pose proof (abs_mul_le v Y (D - d) Hv) as M.
    assert (Y * Rabs (D - d) <= Y * (d * uu + h)) by (apply Rmult_le_compat_l; auto).
    replace (Y * (d * uu + h)) with (Y * d * uu + Y * k * d) in H by (rewrite Eh; ring).
    assert (k <= / 1073741824) as Kk. { apply Rmult_le_reg_r with d; auto. rewrite <- Eh. lra. }
    assert (Y * k * d <= Y * d * / 1073741824).
    { replace (Y * d * / 1073741824) with (Y * / 1073741824 * d) by ring. apply Rmult_le_compat_r; [lra|]. apply Rmult_le_compat_l; auto. }
    apply Rle_trans with ((44 / 10 * uu * Y + 4 * k) * d).
    - replace ((44 / 10 * uu * Y + 4 * k) * d) with (44 / 10 * uu * (Y * d) + 4 * (k * d)) by ring. rewrite <- Eh.
      set (W := Y * d) in *. assert (0 <= W) by (apply Rmult_le_pos; lra). lra.
    - apply Rle_trans with ((44 / 10 * uu * Y + 4 * k) * (D * (1 + / 100000))).
      + apply Rmult_le_compat_l; [lra|]. lra.
      + replace ((44 / 10 * uu * Y + 4 * k) * (D * (1 + / 100000))) with (((44 / 10 * uu * Y + 4 * k) * (1 + / 100000)) * D) by ring.
        apply Rmult_le_compat_r; [lra|]. lra. }
  apply Rmult_le_reg_r in Q; [|auto].
  assert (Rabs q <= Y + (45 / 10 * uu * Y + 5 * k)) as Q2.
  { replace q with ((q - v) + v) by ring. eapply Rle_trans; [apply Rabs_triang|]. lra. }
  split; [lra|].
  replace (r - v) with ((r - q) + (q - v)) by ring. eapply Rle_trans; [apply Rabs_triang|].
  lra.
Qed.

(** The formula [(y1*(x - x0) + y0*(x1 - x)) / (x1 - x0)] in C floats, for an [x]
    between the two points. *)
Lemma line_float : forall x x0 y0 x1 y1 : f32,
  fin x -> fin x0 -> fin y0 -> fin x1 -> fin y1 ->
  b2r x0 <= b2r x <= b2r x1 -> bpow radix2 (-40) <= b2r x1 - b2r x0 ->
  Rabs (b2r x0) <= bpow radix2 40 -> Rabs (b2r x1) <= bpow radix2 40 ->
  forall Y, Rabs (b2r y0) <= Y -> Rabs (b2r y1) <= Y -> Y <= bpow radix2 40 ->
  let r := fdiv (fadd (fmul y1 (fsub x x0)) (fmul y0 (fsub x1 x))) (fsub x1 x0) in
  fin r /\
  Rabs (b2r r - (b2r y1 * (b2r x - b2r x0) + b2r y0 * (b2r x1 - b2r x)) / (b2r x1 - b2r x0))
    <= Y * bpow radix2 (-21) + bpow radix2 (-100).
Proof.
  intros x x0 y0 x1 y1 Fx Fx0 Fy0 Fx1 Fy1 Hx Hd B0 B1 Y Y0 Y1 HY.
  set (T := 1099511627776) in *.
  assert (bpow radix2 40 = T) as ET by reflexivity. rewrite ET in *.
  assert (bpow radix2 127 = 170141183460469231731687303715884105728) as E127 by reflexivity.
  apply Rabs_le_inv in B0. apply Rabs_le_inv in B1.
  assert (0 <= Y) as HY0 by (eapply Rle_trans; [apply Rabs_pos|exact Y0]).
  set (a := b2r x - b2r x0). set (b := b2r x1 - b2r x). set (d := b2r x1 - b2r x0).
  assert (0 <= a) as Ha by (unfold a; lra). assert (0 <= b) as Hb by (unfold b; lra).
  assert (a + b = d) as Hab by (unfold a, b, d; ring).
  assert (bpow radix2 (-40) = / T) as EmT by reflexivity.
  assert (0 < / T) as iT by (apply Rinv_0_lt_compat; unfold T; lra).
  assert (/ T <= d) as Hd' by (unfold d; rewrite <- EmT; auto).
  assert (d <= 2 * T) as Hd2 by (unfold d; lra).
  destruct (fsub_spec x x0 Fx Fx0) as (VA & FA). { apply Rabs_le. rewrite E127. unfold T in *. lra. }
  destruct (fsub_spec x1 x Fx1 Fx) as (VB & FB). { apply Rabs_le. rewrite E127. unfold T in *. lra. }
  destruct (fsub_spec x1 x0 Fx1 Fx0) as (VD & FD). { apply Rabs_le. rewrite E127. unfold T in *. lra. }
  fold a in VA. fold b in VB. fold d in VD.
  pose proof (rnd32_gen a) as EA. pose proof (rnd32_gen b) as EB. pose proof (rnd32_gen d) as ED.
  rewrite <- VA in EA. rewrite <- VB in EB. rewrite <- VD in ED.
  set (A := b2r (fsub x x0)) in *. set (B := b2r (fsub x1 x)) in *. set (D := b2r (fsub x1 x0)) in *.
  rewrite (Rabs_pos_eq a) in EA by auto. rewrite (Rabs_pos_eq b) in EB by auto. rewrite (Rabs_pos_eq d) in ED by lra.
  fold eta in EA, EB, ED.
  assert (eta <= / T * / 1298074214633706907132624082305024) as Heta.
  { unfold eta. replace (-150)%Z with (-40 + -110)%Z by reflexivity. rewrite bpow_plus, EmT. apply Rmult_le_compat_l; [lra|].
    right. reflexivity. }
  pose proof eta_pos as Ep.
  assert (eta <= d * / 1073741824) as Hed by (unfold T in *; lra).
  assert (Rabs A <= 4 * T) as A4. { apply Rabs_le_inv in EA. apply Rabs_le. unfold T in *. lra. }
  assert (Rabs B <= 4 * T) as B4. { apply Rabs_le_inv in EB. apply Rabs_le. unfold T in *. lra. }
  assert (Rabs (b2r y1 * A) <= 4 * T * T) as M1.
  { rewrite Rabs_mult. apply Rle_trans with (T * (4 * T)); [|lra]. apply Rmult_le_compat; try apply Rabs_pos; lra. }
  assert (Rabs (b2r y0 * B) <= 4 * T * T) as M0.
  { rewrite Rabs_mult. apply Rle_trans with (T * (4 * T)); [|lra]. apply Rmult_le_compat; try apply Rabs_pos; lra. }
  destruct (fmul_spec y1 (fsub x x0) Fy1 FA) as (VP1 & FP1).
  { fold A. rewrite E127. unfold T in *. lra. }
  destruct (fmul_spec y0 (fsub x1 x) Fy0 FB) as (VP2 & FP2).
  { fold B. rewrite E127. unfold T in *. lra. }
  fold A in VP1. fold B in VP2.
  pose proof (rnd32_gen (b2r y1 * A)) as EP1. pose proof (rnd32_gen (b2r y0 * B)) as EP2.
  rewrite <- VP1 in EP1. rewrite <- VP2 in EP2. fold eta in EP1, EP2.
  set (P1 := b2r (fmul y1 (fsub x x0))) in *. set (P2 := b2r (fmul y0 (fsub x1 x))) in *.
  assert (Rabs (P1 + P2) <= 12 * T * T) as MP.
  { eapply Rle_trans; [apply Rabs_triang|].
    assert (Rabs P1 <= 6 * T * T).
    { replace P1 with ((P1 - b2r y1 * A) + b2r y1 * A) by ring. eapply Rle_trans; [apply Rabs_triang|]. unfold T in *. lra. }
    assert (Rabs P2 <= 6 * T * T).
    { replace P2 with ((P2 - b2r y0 * B) + b2r y0 * B) by ring. eapply Rle_trans; [apply Rabs_triang|]. unfold T in *. lra. }
    lra. }
  destruct (fadd_spec _ _ FP1 FP2) as (VS & FS). { fold P1 P2. rewrite E127. unfold T in *. lra. }
  fold P1 P2 in VS. pose proof (rnd32_gen (P1 + P2)) as ES. rewrite <- VS in ES. fold eta in ES.
  set (S := b2r (fadd (fmul y1 (fsub x x0)) (fmul y0 (fsub x1 x)))) in *.
  destruct (interp_num a b d (b2r y0) (b2r y1) Y eta A B P1 P2 S) as (HN & HS); auto.
  set (N := b2r y1 * a + b2r y0 * b) in *.
  destruct (interp_quot d Y eta N S D (rnd32 (S / D))) as (HD & HQ & HR); auto; try lra.
  { fold eta. apply rnd32_gen. }
  assert (eta / d <= / 1298074214633706907132624082305024) as Hk.
  { apply Rmult_le_reg_r with d; [lra|]. unfold Rdiv. rewrite Rmult_assoc, Rinv_l, Rmult_1_r by lra. unfold T in *. lra. }
  destruct (fdiv_spec (fadd (fmul y1 (fsub x x0)) (fmul y0 (fsub x1 x))) (fsub x1 x0) FS) as (VR & FR).
  { fold D. lra. } { fold S D. rewrite E127. unfold T in *. lra. }
  cbv zeta. split; [exact FR|]. rewrite VR. fold S D. fold a b d. fold N.
  eapply Rle_trans; [exact HR|].
  change (bpow radix2 (-21)) with (/ 2097152). change (bpow radix2 (-100)) with (/ 1267650600228229401496703205376).
  unfold T in *. lra.
Qed.
