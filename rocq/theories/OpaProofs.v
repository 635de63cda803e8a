(** The opacity profile of a dab, bit exact: for every distance, hardness and
    softness the mask value is between 0 and 2^15. *)
From Verif Require Import Base F32 F32Proofs Blend BlendProofs BlendColorProofs Mask.
From Coq Require Import Reals Lra Psatz.
From Flocq Require Import Core.Core IEEE754.BinarySingleNaN Sterbenz.
Open Scope R_scope.

Definition U : R := / 16777216.          (* 2^-24 *)
Lemma U_bpow : bpow radix2 (-24) = U. Proof. reflexivity. Qed.

Lemma bpow150_small : 0 <= bpow radix2 (-150) <= / 1099511627776 * / 1099511627776.
Proof.
  split; [apply bpow_ge_0|].
  replace (/ 1099511627776 * / 1099511627776) with (bpow radix2 (-80)) by (simpl; lra).
  apply bpow_le. lia.
Qed.

Lemma div_pos : forall a b, 0 <= a -> 0 < b -> 0 <= a / b.
Proof. intros. apply Rmult_le_pos; auto. apply Rlt_le, Rinv_0_lt_compat; auto. Qed.
Lemma div_le : forall a b c, 0 < b -> a <= c * b -> a / b <= c.
Proof.
  intros. apply (Rmult_le_reg_r b); auto. unfold Rdiv. rewrite Rmult_assoc, Rinv_l, Rmult_1_r by lra. auto.
Qed.
Lemma div_le_inv : forall a b c, 0 < b -> a / b <= c -> a <= c * b.
Proof.
  intros. apply (Rmult_le_compat_r b) in H0; [|lra]. unfold Rdiv in H0. rewrite Rmult_assoc, Rinv_l, Rmult_1_r in H0 by lra. auto.
Qed.

Lemma big127 : forall x, (Rabs x <= bpow radix2 126)%R -> (Rabs x <= bpow radix2 127)%R.
Proof. intros. eapply Rle_trans; [exact H|]. apply bpow_le. lia. Qed.

Lemma nonneg_rnd : forall x, 0 <= x -> 0 <= rnd32 x.
Proof. intros. apply rnd32_ge_r; auto. apply (rep32_IZR 0). lia. Qed.
Lemma rnd_le1 : forall x, x <= 1 -> rnd32 x <= 1.
Proof. intros. apply rnd32_le_r; auto. apply (rep32_IZR 1). lia. Qed.

(** floats below 1 are at most 1 - 2^-24 *)
Lemma lt1_gap : forall x, rep32 x -> x < 1 -> x <= 1 - U.
Proof.
  intros x Hx H.
  assert (pred radix2 (SpecFloat.fexp 24 128) 1 = 1 - U) as E.
  { change 1 with (bpow radix2 0) at 1. rewrite (@pred_bpow radix2 (SpecFloat.fexp 24 128)).
    { reflexivity. }
    all: try (apply fexp_correct; reflexivity).
    all: vm_compute; discriminate. }
  rewrite <- E. apply pred_ge_gt; auto.
  - apply fexp_correct. reflexivity.
  - apply (rep32_IZR 1). lia.
Qed.

(** floats in [1/2, 1]: strictly larger means larger by at least 2^-24 *)
Lemma half_gap : forall x y, rep32 x -> rep32 y -> / 2 <= x -> x < y -> y <= 1 -> x + U <= y.
Proof.
  intros x y Hx Hy H1 H2 H3.
  assert (Valid_exp (SpecFloat.fexp 24 128)) by (apply fexp_correct; reflexivity).
  assert (succ radix2 (SpecFloat.fexp 24 128) x <= y) as S by (apply succ_le_lt; auto).
  rewrite succ_eq_pos in S by lra. rewrite ulp_neq_0 in S by lra.
  assert (mag radix2 x = 0%Z :> Z) as M.
  { apply mag_unique. rewrite Rabs_pos_eq by lra. split; [change (bpow radix2 (0 - 1)) with (/ 2); lra|simpl; lra]. }
  unfold cexp in S. rewrite M in S. change (SpecFloat.fexp 24 128 0) with (-24)%Z in S. rewrite U_bpow in S. lra.
Qed.

(** subtracting one from a float in [1, 2^24] is exact *)
Lemma rep32_minus1 : forall x, rep32 x -> 1 <= x <= 16777216 -> rep32 (x - 1).
Proof.
  intros x Hx (H1 & H2).
  assert (FLT_format radix2 (-149) 24 x) as F by (apply FLT_format_generic; [reflexivity|exact Hx]).
  destruct F as [f E M Ex]. destruct f as [m e]. unfold F2R in E. cbn [Fnum Fexp] in *.
  assert (0 < IZR m) as Hm.
  { assert (0 < IZR m * bpow radix2 e) by lra. pose proof (bpow_gt_0 radix2 e).
    destruct (Rle_lt_dec (IZR m) 0); [|auto]. exfalso. nra. }
  apply lt_IZR in Hm. change (Zpower radix2 24) with 16777216%Z in M.
  destruct (Z_le_gt_dec e 0) as [He|He].
  - replace (x - 1) with (IZR (m - 2 ^ (- e)) * bpow radix2 e).
    + apply rep32_scaled; [|lia].
      assert (2 ^ (- e) <= m)%Z.
      { apply le_IZR. rewrite <- bpow_Z by lia.
        apply (Rmult_le_reg_r (bpow radix2 e)); [apply bpow_gt_0|]. rewrite <- bpow_plus.
        replace (- e + e)%Z with 0%Z by lia. simpl. lra. }
      assert (0 < 2 ^ (- e))%Z by (apply Z.pow_pos_nonneg; lia). lia.
    + rewrite minus_IZR, <- bpow_Z by lia. rewrite Rmult_minus_distr_r, <- bpow_plus.
      replace (- e + e)%Z with 0%Z by lia. simpl. lra.
  - assert (x = IZR (m * 2 ^ e)) as X by (rewrite mult_IZR, <- bpow_Z by lia; auto).
    rewrite X, <- minus_IZR. apply rep32_IZR.
    rewrite X in H1, H2. apply le_IZR in H1, H2. lia.
Qed.


Lemma near_real : forall h O q d m p r t,
  0 < h <= 1 -> 0 <= O <= 1 -> 0 <= t <= U / 1000 ->
  1 <= q <= / h * (1 + U) + t -> 0 <= d <= (q - 1) * (1 + U) + t ->
  0 <= m <= d * O * (1 + U) + t -> 0 <= r <= h -> p <= r * m * (1 + U) + t ->
  p <= (1 - h) * O + 8 * U.
Proof.
  intros h O q d m p r t Hh HO Ht Hq Hd Hm Hr Hp.
  assert (0 < U <= / 1000000) as UP by (unfold U; lra).
  assert (h * q <= 1 + 2 * U) as A.
  { apply Rle_trans with (h * (/ h * (1 + U) + t)); [apply Rmult_le_compat_l; lra|].
    rewrite Rmult_plus_distr_l, <- Rmult_assoc, Rinv_r by lra.
    assert (h * t <= 1 * t) by (apply Rmult_le_compat_r; lra). lra. }
  assert (h * (q - 1) <= 1 - h + 2 * U) as A1 by lra.
  assert (0 <= h * (q - 1)) as A0 by (apply Rmult_le_pos; lra).
  assert (0 <= h * d <= 1 - h + 4 * U) as B.
  { split; [apply Rmult_le_pos; lra|].
    apply Rle_trans with (h * ((q - 1) * (1 + U) + t)); [apply Rmult_le_compat_l; lra|].
    replace (h * ((q - 1) * (1 + U) + t)) with (h * (q - 1) + h * (q - 1) * U + h * t) by ring.
    assert (h * t <= 1 * t) by (apply Rmult_le_compat_r; lra).
    assert (h * (q - 1) * U <= (1 + 2 * U) * U) by (apply Rmult_le_compat_r; lra).
    assert (2 * U * U <= / 10 * U) by (apply Rmult_le_compat_r; lra). lra. }
  assert (0 <= h * d * O <= (1 - h) * O + 4 * U) as C0.
  { split; [apply Rmult_le_pos; lra|].
    apply Rle_trans with ((1 - h + 4 * U) * O); [apply Rmult_le_compat_r; lra|].
    assert (4 * U * O <= 4 * U * 1) by (apply Rmult_le_compat_l; lra). lra. }
  assert ((1 - h) * O <= 1 * 1) as C1 by (apply Rmult_le_compat; lra).
  assert (0 <= h * m <= (1 - h) * O + 6 * U) as C.
  { split; [apply Rmult_le_pos; lra|].
    apply Rle_trans with (h * (d * O * (1 + U) + t)); [apply Rmult_le_compat_l; lra|].
    replace (h * (d * O * (1 + U) + t)) with (h * d * O + h * d * O * U + h * t) by ring.
    assert (h * t <= 1 * t) by (apply Rmult_le_compat_r; lra).
    assert (h * d * O * U <= (1 + 4 * U) * U) by (apply Rmult_le_compat_r; lra).
    assert (4 * U * U <= / 10 * U) by (apply Rmult_le_compat_r; lra). lra. }
  assert (r * m <= h * m) as D by (apply Rmult_le_compat_r; lra).
  assert (r * m * U <= (1 + 6 * U) * U) by (apply Rmult_le_compat_r; lra).
  assert (6 * U * U <= / 10 * U) by (apply Rmult_le_compat_r; lra). lra.
Qed.

Lemma far_real_small : forall h O w d o2 p r t,
  0 < h <= / 2 -> 0 <= O <= 1 -> 0 <= t <= U / 1000 -> / 2 <= w -> (1 - h) * (1 - U) - t <= w ->
  0 <= d <= h / w * (1 + U) + t -> d <= 1 -> 0 <= o2 <= d * O * (1 + U) + t -> o2 <= 1 ->
  h <= r <= 1 -> r * o2 * (1 - U) - t <= p -> o2 - p <= h * O + 8 * U.
Proof.
  intros h O w d o2 p r t Hh HO Ht Hw1 Hw Hd Hd1 Ho Ho1 Hr Hp.
  assert (0 < U <= / 1000000) as UP by (unfold U; lra).
  assert (h * o2 <= r * o2) by (apply Rmult_le_compat_r; lra).
  assert (r * o2 * U <= 1 * U).
  { apply Rmult_le_compat_r; [lra|]. apply Rle_trans with (1 * 1); [apply Rmult_le_compat; lra|lra]. }
  assert ((1 - h) * o2 <= h * O + 6 * U); [|lra].
  assert (0 <= h / w) as Q0 by (apply div_pos; lra).
  assert ((1 - h) * (h / w) <= h + 3 * U) as Q.
  { assert (h / w * w = h) by (unfold Rdiv; rewrite Rmult_assoc, Rinv_l by lra; ring).
    assert (h / w <= 1) by (apply div_le; lra).
    assert (h / w * ((1 - h) * (1 - U) - t) <= h / w * w) by (apply Rmult_le_compat_l; auto).
    assert (h / w * t <= 1 * t) by (apply Rmult_le_compat_r; lra).
    assert (h / w * (1 - h) <= 1 * 1) by (apply Rmult_le_compat; lra).
    assert (h / w * (1 - h) * U <= 1 * 1 * U) by (apply Rmult_le_compat_r; lra).
    replace (h / w * ((1 - h) * (1 - U) - t)) with (h / w * (1 - h) - h / w * (1 - h) * U - h / w * t) in * by ring.
    lra. }
  assert ((1 - h) * d <= h + 9 / 2 * U) as D.
  { apply Rle_trans with ((1 - h) * (h / w * (1 + U) + t)); [apply Rmult_le_compat_l; lra|].
    replace ((1 - h) * (h / w * (1 + U) + t)) with ((1 - h) * (h / w) + (1 - h) * (h / w) * U + (1 - h) * t) by ring.
    assert ((1 - h) * t <= 1 * t) by (apply Rmult_le_compat_r; lra).
    assert ((1 - h) * (h / w) * U <= 1 * U) by (apply Rmult_le_compat_r; lra). lra. }
  assert (0 <= (1 - h) * d) by (apply Rmult_le_pos; lra).
  apply Rle_trans with ((1 - h) * (d * O * (1 + U) + t)); [apply Rmult_le_compat_l; lra|].
  replace ((1 - h) * (d * O * (1 + U) + t)) with ((1 - h) * d * O + (1 - h) * d * O * U + (1 - h) * t) by ring.
  assert ((1 - h) * t <= 1 * t) by (apply Rmult_le_compat_r; lra).
  assert ((1 - h) * d * O <= (h + 9 / 2 * U) * O) by (apply Rmult_le_compat_r; lra).
  assert ((1 - h) * d * O * U <= 6 / 10 * U).
  { apply Rmult_le_compat_r; [lra|]. apply Rle_trans with (6 / 10 * 1); [apply Rmult_le_compat; lra|lra]. }
  assert (9 / 2 * U * O <= 9 / 2 * U * 1) by (apply Rmult_le_compat_l; lra). lra.
Qed.

Lemma far_real_big : forall h O d o2 p r t,
  / 2 <= h <= 1 - U -> 0 <= O <= 1 -> 0 <= t <= U / 1000 ->
  0 <= d <= h / (1 - h) * (1 + U) + t -> 0 <= o2 <= d * O * (1 + U) + t ->
  h + U <= r <= 1 -> r * o2 * (1 - U) - t <= p -> o2 - p <= h * O + 8 * U.
Proof.
  intros h O d o2 p r t Hh HO Ht Hd Ho Hr Hp.
  assert (0 < U <= / 1000000) as UP by (unfold U; lra).
  assert ((h + U) * (1 - U) >= h) as K.
  { assert (U * U <= (1 - h) * U) by (apply Rmult_le_compat_r; lra). lra. }
  assert (h <= r * (1 - U)) as K2.
  { apply Rle_trans with ((h + U) * (1 - U)); [lra|apply Rmult_le_compat_r; lra]. }
  assert (h * o2 <= r * (1 - U) * o2) by (apply Rmult_le_compat_r; lra).
  assert ((1 - h) * o2 <= h * O + 6 * U); [|lra].
  assert ((1 - h) * (h / (1 - h)) = h) as Q by (field; lra).
  assert (0 <= (1 - h) * d <= h + h * U + t) as D.
  { split; [apply Rmult_le_pos; lra|].
    apply Rle_trans with ((1 - h) * (h / (1 - h) * (1 + U) + t)); [apply Rmult_le_compat_l; lra|].
    replace ((1 - h) * (h / (1 - h) * (1 + U) + t)) with ((1 - h) * (h / (1 - h)) * (1 + U) + (1 - h) * t) by ring.
    rewrite Q. assert ((1 - h) * t <= 1 * t) by (apply Rmult_le_compat_r; lra). lra. }
  assert (h * U <= 1 * U) by (apply Rmult_le_compat_r; lra).
  apply Rle_trans with ((1 - h) * (d * O * (1 + U) + t)); [apply Rmult_le_compat_l; lra|].
  replace ((1 - h) * (d * O * (1 + U) + t)) with ((1 - h) * d * O + (1 - h) * d * O * U + (1 - h) * t) by ring.
  assert ((1 - h) * t <= 1 * t) by (apply Rmult_le_compat_r; lra).
  assert ((1 - h) * d * O <= (h + 2 * U) * O) by (apply Rmult_le_compat_r; lra).
  assert ((1 - h) * d * O * U <= 11 / 10 * U).
  { apply Rmult_le_compat_r; [lra|]. apply Rle_trans with (11 / 10 * 1); [apply Rmult_le_compat; lra|lra]. }
  assert (2 * U * O <= 2 * U * 1) by (apply Rmult_le_compat_l; lra). lra.
Qed.

  Lemma tiny_U : bpow radix2 (-150) <= U / 1000.
  Proof. pose proof bpow150_small. unfold U. lra. Qed.

  Lemma rnd_hi : forall x, 0 <= x -> 0 <= rnd32 x <= x * (1 + U) + bpow radix2 (-150).
  Proof.
    intros. split; [apply nonneg_rnd; auto|]. pose proof (rnd32_gen x) as E.
    rewrite (Rabs_pos_eq x) in E by auto. apply Rabs_le_inv in E. unfold U. lra.
  Qed.
  Lemma rnd_lo : forall x, 0 <= x -> x * (1 - U) - bpow radix2 (-150) <= rnd32 x.
  Proof.
    intros. pose proof (rnd32_gen x) as E.
    rewrite (Rabs_pos_eq x) in E by auto. apply Rabs_le_inv in E. unfold U. lra.
  Qed.
  Lemma rnd_unit_err : forall x, Rabs x <= 2 -> Rabs (rnd32 x - x) <= U.
  Proof.
    intros. pose proof (rnd32_err x 1 H) as E. change (bpow radix2 (1 - 25)) with U in E. apply E. lia.
  Qed.

(** ** The profile *)

Definition nonneg_f (x : f32) : Prop := (fin x /\ 0 <= b2r x) \/ x = B754_infinity false.

Section Profile.
  Variables h s : f32.
  Hypothesis Fh : fin h.
  Hypothesis Hh : bpow radix2 (-126) <= b2r h <= 1.
  Hypothesis Fs : fin s.
  Hypothesis Hs : 0 <= b2r s <= 1.

  Let o := fsub f1 s.

  Lemma o_val : fin o /\ 0 <= b2r o <= 1.
  Proof.
    destruct f1_val as (V1 & F1). unfold o.
    destruct (fsub_spec f1 s F1 Fs) as (E & F).
    { apply big127. rewrite V1. eapply Rle_trans; [|apply (bpow_le radix2 0); lia].
      simpl. apply Rabs_le. lra. }
    split; auto. rewrite E, V1. split; [apply nonneg_rnd; lra|apply rnd_le1; lra].
  Qed.

  Lemma seg1_eq : fmul f1 o = o \/ (fin (fmul f1 o) /\ b2r (fmul f1 o) = b2r o).
  Proof.
    right. destruct f1_val as (V1 & F1). destruct o_val as (Fo & Ho).
    destruct (fmul_spec f1 o F1 Fo) as (E & F).
    { apply big127. rewrite V1, Rmult_1_l. eapply Rle_trans; [|apply (bpow_le radix2 0); lia]. simpl. apply Rabs_le. lra. }
    split; auto. rewrite E, V1, Rmult_1_l. apply rnd32_id. apply rep32_b2r.
  Qed.

  Lemma h_pos : 0 < b2r h.
  Proof. pose proof (bpow_gt_0 radix2 (-126)). lra. Qed.

  Lemma inv_h : 1 <= / b2r h <= bpow radix2 126.
  Proof.
    pose proof h_pos. split.
    - rewrite <- Rinv_1. apply Rinv_le_contravar; lra.
    - change 126%Z with (- (-126))%Z. rewrite bpow_opp. apply Rinv_le_contravar; [apply bpow_gt_0|tauto].
  Qed.

  (** the near slope *)
  Lemma slope1 : exists d, 0 <= d <= / b2r h * (1 + U) + bpow radix2 (-150) /\
    fin (fmul (fopp (fsub (fdiv f1 h) f1)) o) /\
    b2r (fmul (fopp (fsub (fdiv f1 h) f1)) o) = - rnd32 (d * b2r o) /\ d <= bpow radix2 127.
  Proof.
    destruct f1_val as (V1 & F1). destruct o_val as (Fo & Ho). pose proof h_pos as Hp. pose proof inv_h as Ih.
    destruct (fdiv_spec f1 h F1) as (Eq & Fq).
    { lra. }
    { rewrite V1. unfold Rdiv. rewrite Rmult_1_l. apply big127. rewrite Rabs_pos_eq by lra. tauto. }
    rewrite V1 in Eq. unfold Rdiv in Eq. rewrite Rmult_1_l in Eq.
    assert (rnd32 (/ b2r h) <= bpow radix2 126) as Q1 by (apply rnd32_le_r; [apply rep32_bpow; lia|tauto]).
    assert (1 <= rnd32 (/ b2r h)) as Q0 by (apply rnd32_ge_r; [apply (rep32_IZR 1); lia|tauto]).
    pose proof (rnd32_gen (/ b2r h)) as Qe. rewrite (Rabs_pos_eq (/ b2r h)) in Qe by lra. apply Rabs_le_inv in Qe.
    set (q := rnd32 (/ b2r h)) in *.
    destruct (fsub_spec (fdiv f1 h) f1 Fq F1) as (Ed & Fd).
    { rewrite Eq, V1. apply big127. rewrite Rabs_pos_eq by lra. lra. }
    rewrite Eq, V1 in Ed.
    assert (rep32 q) as Rq by (rewrite <- Eq; apply rep32_b2r).
    assert (0 <= rnd32 (q - 1) <= q) as D.
    { split; [apply nonneg_rnd; lra|]. apply rnd32_le_r; auto. lra. }
    destruct (fopp_spec (fsub (fdiv f1 h) f1)) as (Eo & Fop). specialize (Fop Fd).
    rewrite Ed in Eo. set (d := rnd32 (q - 1)) in *.
    assert (bpow radix2 126 <= bpow radix2 127) by (apply bpow_le; lia).
    destruct (fmul_spec (fopp (fsub (fdiv f1 h) f1)) o Fop Fo) as (Em & Fm).
    { rewrite Eo. rewrite Rabs_mult, Rabs_Ropp, !Rabs_pos_eq by lra. nra. }
    exists d. split; [unfold U; lra|]. split; auto. split; [|lra].
    rewrite Em, Eo. rewrite <- rnd32_opp. f_equal. ring.
  Qed.

  Lemma near_ok : forall rr, fin rr -> 0 <= b2r rr <= b2r h ->
    let v := fadd (fmul f1 o) (fmul rr (fmul (fopp (fsub (fdiv f1 h) f1)) o)) in
    fin v /\ - / 1048576 <= b2r v <= 1.
  Proof.
    intros rr Fr Hr. cbv zeta.
    destruct o_val as (Fo & Ho). pose proof h_pos as Hp. pose proof inv_h as Ih.
    destruct slope1 as (d & Hd & Fs1 & Es1 & Hd2).
    set (s1 := fmul (fopp (fsub (fdiv f1 h) f1)) o) in *.
    assert (fin (fmul f1 o) /\ b2r (fmul f1 o) = b2r o) as (Fo1 & Eo1).
    { destruct seg1_eq as [-> | (A & B)]; auto. }
    pose proof bpow150_small as Tiny.
    assert (0 <= d * b2r o) as P0 by nra.
    pose proof (rnd32_gen (d * b2r o)) as E1. rewrite (Rabs_pos_eq (d * b2r o)) in E1 by auto. apply Rabs_le_inv in E1.
    pose proof (nonneg_rnd (d * b2r o) P0) as N1.
    set (m := rnd32 (d * b2r o)) in *.
    set (t := bpow radix2 (-150)) in *.
    assert (b2r h * d <= 1 + U + t) as HD.
    { assert (b2r h * d <= b2r h * (/ b2r h * (1 + U) + t)) by (apply Rmult_le_compat_l; lra).
      rewrite Rmult_plus_distr_l, <- Rmult_assoc, Rinv_r in H by lra.
      assert (b2r h * t <= t) by nra. lra. }
    assert (b2r rr * m <= b2r o + / 4000000) as PM.
    { assert (m <= d * b2r o * (1 + U) + t) by (unfold U; lra).
      assert (b2r rr * m <= b2r h * m) by nra.
      assert (b2r h * m <= b2r h * (d * b2r o * (1 + U) + t)) by (apply Rmult_le_compat_l; lra).
      assert (b2r h * (d * b2r o * (1 + U) + t) <= (b2r h * d) * (b2r o * (1 + U)) + t) by nra.
      assert ((b2r h * d) * (b2r o * (1 + U)) <= (1 + U + t) * (b2r o * (1 + U))).
      { apply Rmult_le_compat_r; [|auto]. unfold U. nra. }
      assert ((1 + U + t) * (1 + U) <= 1 + / 5000000) by (unfold U; nra).
      assert ((1 + U + t) * (b2r o * (1 + U)) <= b2r o * (1 + / 5000000)) by nra.
      nra. }
    assert (0 <= b2r rr * m) as PM0 by nra.
    destruct (fmul_spec rr s1 Fr Fs1) as (Ep & Fp).
    { rewrite Es1. apply big127. eapply Rle_trans; [|apply (bpow_le radix2 1); lia].
      rewrite Rabs_mult, Rabs_Ropp, !Rabs_pos_eq by lra. simpl. lra. }
    rewrite Es1 in Ep. replace (b2r rr * - m) with (- (b2r rr * m)) in Ep by ring. rewrite rnd32_opp in Ep.
    pose proof (rnd32_gen (b2r rr * m)) as E2. rewrite (Rabs_pos_eq (b2r rr * m)) in E2 by auto. apply Rabs_le_inv in E2.
    pose proof (nonneg_rnd _ PM0) as N2.
    set (p := rnd32 (b2r rr * m)) in *. fold t in E2.
    assert (p <= b2r o + / 2000000) as PB by lra.
    destruct (fadd_spec (fmul f1 o) (fmul rr s1) Fo1 Fp) as (Ev & Fv).
    { rewrite Eo1, Ep. apply big127. eapply Rle_trans; [|apply (bpow_le radix2 2); lia]. simpl. apply Rabs_le. lra. }
    split; auto. rewrite Ev, Eo1, Ep. split.
    - apply rnd32_ge_r; [|lra]. replace (- / 1048576) with (IZR (-1) * bpow radix2 (-20)) by (simpl; lra).
      apply rep32_scaled; lia.
    - apply rnd_le1. lra.
  Qed.

  Lemma far_parts : b2r h < 1 -> exists O2, 0 <= O2 <= 16777216 /\
    fin (fmul (fdiv h (fsub f1 h)) o) /\ b2r (fmul (fdiv h (fsub f1 h)) o) = O2 /\
    fin (fmul (fdiv (fopp h) (fsub f1 h)) o) /\ b2r (fmul (fdiv (fopp h) (fsub f1 h)) o) = - O2.
  Proof.
    intros Hlt. destruct o_val as (Fo & Ho). pose proof h_pos as Hp. destruct f1_val as (V1 & F1).
    assert (b2r h <= 1 - U) as H1 by (apply lt1_gap; [apply rep32_b2r|lra]).
    assert (0 < U) as UP by (unfold U; lra).
    destruct (fsub_spec f1 h F1 Fh) as (E1 & G1).
    { rewrite V1. apply big127. eapply Rle_trans; [|apply (bpow_le radix2 0); lia]. simpl. apply Rabs_le. lra. }
    rewrite V1 in E1.
    assert (U <= rnd32 (1 - b2r h) <= 1) as R1.
    { split; [|apply rnd_le1; lra]. apply rnd32_ge_r; [|lra]. rewrite <- U_bpow. apply rep32_bpow. lia. }
    set (w := rnd32 (1 - b2r h)) in *.
    assert (0 <= b2r h / w <= 16777216) as Q.
    { split; [apply div_pos; lra|]. apply div_le; [lra|].
      apply Rle_trans with (16777216 * U); [unfold U; lra|apply Rmult_le_compat_l; lra]. }
    assert (bpow radix2 24 <= bpow radix2 126) as B24 by (apply bpow_le; lia).
    change (bpow radix2 24) with 16777216 in B24.
    assert (b2r (fsub f1 h) <> 0) as NZ by lra.
    destruct (fdiv_spec h (fsub f1 h) Fh NZ) as (Ed & Fd).
    { rewrite E1. fold w. apply big127. rewrite Rabs_pos_eq by tauto. lra. }
    rewrite E1 in Ed. fold w in Ed.
    destruct (fopp_spec h) as (Eoh & Foh). specialize (Foh Fh).
    destruct (fdiv_spec (fopp h) (fsub f1 h) Foh NZ) as (Ed' & Fd').
    { rewrite Eoh, E1. fold w. unfold Rdiv. rewrite Ropp_mult_distr_l_reverse, Rabs_Ropp. fold (Rdiv (b2r h) w).
      apply big127. rewrite Rabs_pos_eq by tauto. lra. }
    rewrite Eoh, E1 in Ed'. fold w in Ed'. unfold Rdiv in Ed'. rewrite Ropp_mult_distr_l_reverse, rnd32_opp in Ed'.
    fold (Rdiv (b2r h) w) in Ed'.
    assert (0 <= rnd32 (b2r h / w) <= 16777216) as DR.
    { split; [apply nonneg_rnd; tauto|]. apply rnd32_le_r; [apply rep32_IZR; lia|tauto]. }
    set (d := rnd32 (b2r h / w)) in *.
    assert (0 <= d * b2r o <= 16777216) as DO.
    { split; [apply Rmult_le_pos; lra|]. apply Rle_trans with (16777216 * 1); [apply Rmult_le_compat; lra|lra]. }
    destruct (fmul_spec (fdiv h (fsub f1 h)) o Fd Fo) as (Em & Fm).
    { rewrite Ed. apply big127. rewrite Rabs_pos_eq by lra. lra. }
    rewrite Ed in Em.
    destruct (fmul_spec (fdiv (fopp h) (fsub f1 h)) o Fd' Fo) as (Em' & Fm').
    { rewrite Ed'. replace (- d * b2r o) with (- (d * b2r o)) by ring. rewrite Rabs_Ropp. apply big127. rewrite Rabs_pos_eq by lra. lra. }
    rewrite Ed' in Em'. replace (- d * b2r o) with (- (d * b2r o)) in Em' by ring. rewrite rnd32_opp in Em'.
    exists (rnd32 (d * b2r o)). repeat split; auto; try tauto.
    - apply nonneg_rnd; tauto.
    - apply rnd32_le_r; [apply rep32_IZR; lia|tauto].
  Qed.

  (** far from the centre *)
  Lemma far_ok : forall rr, fin rr -> b2r h < b2r rr <= 1 ->
    let v := fadd (fmul (fdiv h (fsub f1 h)) o) (fmul rr (fmul (fdiv (fopp h) (fsub f1 h)) o)) in
    fin v /\ 0 <= b2r v <= 1 /\ b2r v <= b2r h * b2r o + 9 * U.
  Proof.
    intros rr Fr Hr. cbv zeta.
    destruct o_val as (Fo & Ho). pose proof h_pos as Hp. destruct f1_val as (V1 & F1).
    assert (b2r h <= 1 - U) as H1 by (apply lt1_gap; [apply rep32_b2r|lra]).
    assert (0 < U) as UP by (unfold U; lra).
    destruct (fsub_spec f1 h F1 Fh) as (E1 & G1).
    { rewrite V1. apply big127. eapply Rle_trans; [|apply (bpow_le radix2 0); lia]. simpl. apply Rabs_le. lra. }
    rewrite V1 in E1.
    assert (U <= rnd32 (1 - b2r h) <= 1) as R1.
    { split; [|apply rnd_le1; lra]. apply rnd32_ge_r; [|lra]. rewrite <- U_bpow. apply rep32_bpow. lia. }
    (* the quotient d, bounded, with d * (1 - rr) <= 1 *)
    set (w := rnd32 (1 - b2r h)) in *.
    assert (0 <= b2r h / w <= 16777215) as Q.
    { split; [apply div_pos; lra|].
      apply div_le; [lra|].
      assert (1 - b2r h <= w \/ b2r h <= / 2) as [X|X].
      { destruct (Rle_lt_dec (b2r h) (/ 2)); [auto|left]. apply Req_le. symmetry. apply rnd32_id.
        apply (sterbenz radix2 (SpecFloat.fexp 24 128)).
        - apply (rep32_IZR 1). lia.
        - apply rep32_b2r.
        - lra. }
      - unfold U in *. lra.
      - unfold U in *. lra. }
    assert (rnd32 (b2r h / w) * (1 - b2r rr) <= 1 /\ 0 <= rnd32 (b2r h / w) <= 16777215) as (DB & DR).
    { assert (0 <= rnd32 (b2r h / w) <= 16777215) as DR.
      { split; [apply nonneg_rnd; tauto|]. apply rnd32_le_r; [apply rep32_IZR; lia|tauto]. }
      split; auto. destruct (Rle_lt_dec (b2r h) (/ 2)) as [X|X].
      - assert (/ 2 <= w). { apply rnd32_ge_r; [|lra]. change (/ 2) with (bpow radix2 (-1)). apply rep32_bpow; lia. }
        assert (rnd32 (b2r h / w) <= 1). { apply rnd_le1. apply div_le; lra. }
        nra.
      - assert (w = 1 - b2r h) as W.
        { apply rnd32_id. apply (sterbenz radix2 (SpecFloat.fexp 24 128)).
          - apply (rep32_IZR 1). lia.
          - apply rep32_b2r.
          - lra. }
        assert (b2r h + U <= b2r rr) as G by (apply half_gap; try apply rep32_b2r; lra).
        pose proof (rnd32_gen (b2r h / w)) as Er. rewrite (Rabs_pos_eq (b2r h / w)) in Er by tauto.
        apply Rabs_le_inv in Er. fold U in Er.
        (* at this size the error is purely relative *)
        assert (rnd32 (b2r h / w) <= b2r h / w * (1 + U)) as Er2.
        { destruct (Rle_lt_dec (b2r h / w) 1) as [L|L].
          { exfalso. apply div_le_inv in L; [|lra]. lra. }
          assert (bpow radix2 (-149 + 24 - 1) <= Rabs (b2r h / w)) as NB.
          { rewrite Rabs_pos_eq by lra. apply Rle_trans with 1; [|lra]. apply (bpow_le radix2 _ 0). lia. }
          pose proof (Relative.relative_error_N_FLT radix2 (-149) 24 eq_refl (fun x => negb (Z.even x)) _ NB) as RE.
          rewrite (Rabs_pos_eq (b2r h / w)) in RE by lra. apply Rabs_le_inv in RE.
          change (round radix2 (FLT_exp (-149) 24) (Znearest (fun x => negb (Z.even x))) (b2r h / w)) with (rnd32 (b2r h / w)) in RE.
          change (bpow radix2 (- (24) + 1)) with (/ 8388608) in RE. unfold U. lra. }
        apply Rle_trans with (b2r h / w * (1 + U) * (1 - b2r rr)).
        { apply Rmult_le_compat_r; lra. }
        rewrite W. set (t := 1 - b2r h) in *.
        assert (b2r h = 1 - t) as -> by (unfold t; ring).
        assert (U <= t) by lra.
        assert ((1 + U) * (1 - b2r rr) <= t).
        { assert (1 - b2r rr <= t - U) by (unfold t; lra).
          apply Rle_trans with ((1 + U) * (t - U)); [apply Rmult_le_compat_l; lra|].
          assert (t * U <= U) by (assert (t <= 1) by (unfold t; lra); nra). nra. }
        apply Rle_trans with ((1 - t) / t * t).
        + rewrite Rmult_assoc. apply Rmult_le_compat_l; [|auto]. apply div_pos; unfold t in *; lra.
        + unfold Rdiv. rewrite Rmult_assoc, Rinv_l by lra. unfold t in *. lra. }
    assert (b2r (fsub f1 h) <> 0) as NZ by lra.
    destruct (fdiv_spec h (fsub f1 h) Fh NZ) as (Ed & Fd).
    { rewrite E1. fold w. apply big127. rewrite Rabs_pos_eq by tauto.
      apply Rle_trans with 16777216; [lra|]. change 16777216 with (bpow radix2 24). apply bpow_le. lia. }
    rewrite E1 in Ed. fold w in Ed.
    destruct (fopp_spec h) as (Eoh & Foh). specialize (Foh Fh).
    destruct (fdiv_spec (fopp h) (fsub f1 h) Foh NZ) as (Ed' & Fd').
    { rewrite Eoh, E1. fold w. unfold Rdiv. rewrite Ropp_mult_distr_l_reverse, Rabs_Ropp. fold (Rdiv (b2r h) w).
      apply big127. rewrite Rabs_pos_eq by tauto.
      apply Rle_trans with 16777216; [lra|]. change 16777216 with (bpow radix2 24). apply bpow_le. lia. }
    rewrite Eoh, E1 in Ed'. fold w in Ed'. unfold Rdiv in Ed'. rewrite Ropp_mult_distr_l_reverse, rnd32_opp in Ed'.
    fold (Rdiv (b2r h) w) in Ed'.
    set (d := rnd32 (b2r h / w)) in *.
    assert (rep32 d) as Rd by (rewrite <- Ed; apply rep32_b2r).
    assert (0 <= d * b2r o <= d) as DO by nra.
    destruct (fmul_spec (fdiv h (fsub f1 h)) o Fd Fo) as (Em & Fm).
    { rewrite Ed. apply big127. rewrite Rabs_pos_eq by lra.
      apply Rle_trans with 16777216; [lra|]. change 16777216 with (bpow radix2 24). apply bpow_le. lia. }
    rewrite Ed in Em.
    destruct (fmul_spec (fdiv (fopp h) (fsub f1 h)) o Fd' Fo) as (Em' & Fm').
    { rewrite Ed'. replace (- d * b2r o) with (- (d * b2r o)) by ring. rewrite Rabs_Ropp. apply big127. rewrite Rabs_pos_eq by lra.
      apply Rle_trans with 16777216; [lra|]. change 16777216 with (bpow radix2 24). apply bpow_le. lia. }
    rewrite Ed' in Em'. replace (- d * b2r o) with (- (d * b2r o)) in Em' by ring. rewrite rnd32_opp in Em'.
    assert (0 <= rnd32 (d * b2r o) <= d) as OB.
    { split; [apply nonneg_rnd; lra|]. apply rnd32_le_r; auto. lra. }
    set (O2 := rnd32 (d * b2r o)) in *.
    assert (rep32 O2) as RO by (rewrite <- Em; apply rep32_b2r).
    assert (0 <= b2r rr * O2 <= O2) as RB by nra.
    destruct (fmul_spec rr (fmul (fdiv (fopp h) (fsub f1 h)) o) Fr Fm') as (Ep & Fp).
    { rewrite Em'. replace (b2r rr * - O2) with (- (b2r rr * O2)) by ring. rewrite Rabs_Ropp. apply big127. rewrite Rabs_pos_eq by lra.
      apply Rle_trans with 16777216; [lra|]. change 16777216 with (bpow radix2 24). apply bpow_le. lia. }
    rewrite Em' in Ep. replace (b2r rr * - O2) with (- (b2r rr * O2)) in Ep by ring. rewrite rnd32_opp in Ep.
    set (p := rnd32 (b2r rr * O2)) in *.
    assert (0 <= p <= O2) as PB.
    { split; [apply nonneg_rnd; lra|]. apply rnd32_le_r; auto. lra. }
    assert (O2 - p <= 1) as PL.
    { destruct (Rle_lt_dec O2 1) as [L|L]; [lra|].
      assert (O2 - 1 <= p); [|lra]. apply rnd32_ge_r.
      - apply rep32_minus1; auto. lra.
      - assert (O2 * (1 - b2r rr) <= d * (1 - b2r rr)) by (apply Rmult_le_compat_r; lra). lra. }
    destruct (fadd_spec _ _ Fm Fp) as (Ev & Fv).
    { rewrite Em, Ep. apply big127. rewrite Rabs_pos_eq by lra.
      apply Rle_trans with 16777216; [lra|]. change 16777216 with (bpow radix2 24). apply bpow_le. lia. }
    split; auto. rewrite Ev, Em, Ep. split; [split; [apply nonneg_rnd; lra|apply rnd_le1; lra]|].
    assert (Rabs (O2 + - p) <= 2) as AB by (apply Rabs_le; lra).
    pose proof (rnd_unit_err _ AB) as E4. apply Rabs_le_inv in E4.
    assert (O2 - p <= b2r h * b2r o + 8 * U); [|lra].
    pose proof tiny_U as TU. assert (0 <= bpow radix2 (-150)) as T0 by apply bpow_ge_0.
    set (t := bpow radix2 (-150)) in *.
    assert (0 <= d <= b2r h / w * (1 + U) + t) as Hd by (apply rnd_hi; tauto).
    assert (0 <= O2 <= d * b2r o * (1 + U) + t) as HO2 by (apply rnd_hi; tauto).
    assert (b2r rr * O2 * (1 - U) - t <= p) as Hp2 by (apply rnd_lo; tauto).
    destruct (Rle_lt_dec (b2r h) (/ 2)) as [X|X].
    - assert (/ 2 <= w) as Hw2. { apply rnd32_ge_r; [|lra]. change (/ 2) with (bpow radix2 (-1)). apply rep32_bpow; lia. }
      assert (d <= 1) as Hd1. { apply rnd_le1. apply div_le; lra. }
      apply (far_real_small (b2r h) (b2r o) w d O2 p (b2r rr) t); auto; try lra.
      apply rnd_lo. lra.
    - assert (w = 1 - b2r h) as W.
      { apply rnd32_id. apply (sterbenz radix2 (SpecFloat.fexp 24 128)).
        - apply (rep32_IZR 1). lia.
        - apply rep32_b2r.
        - lra. }
      assert (b2r h + U <= b2r rr) as G by (apply half_gap; try apply rep32_b2r; lra).
      rewrite W in Hd.
      apply (far_real_big (b2r h) (b2r o) d O2 p (b2r rr) t); auto; try lra.
  Qed.

  (** lower bound of the near segment *)
  Lemma near_low : forall rr, fin rr -> 0 <= b2r rr <= b2r h ->
    b2r h * b2r o - 9 * U <=
    b2r (fadd (fmul f1 o) (fmul rr (fmul (fopp (fsub (fdiv f1 h) f1)) o))).
  Proof.
    intros rr Fr Hr.
    destruct o_val as (Fo & Ho). pose proof h_pos as Hp. pose proof inv_h as Ih.
    destruct f1_val as (V1 & F1).
    destruct (fdiv_spec f1 h F1) as (Eq & Fq).
    { lra. }
    { rewrite V1. unfold Rdiv. rewrite Rmult_1_l. apply big127. rewrite Rabs_pos_eq by lra. tauto. }
    rewrite V1 in Eq. unfold Rdiv in Eq. rewrite Rmult_1_l in Eq.
    assert (rnd32 (/ b2r h) <= bpow radix2 126) as Q1 by (apply rnd32_le_r; [apply rep32_bpow; lia|tauto]).
    assert (1 <= rnd32 (/ b2r h)) as Q0 by (apply rnd32_ge_r; [apply (rep32_IZR 1); lia|tauto]).
    assert (rnd32 (/ b2r h) <= / b2r h * (1 + U) + bpow radix2 (-150)) as Qe by (apply rnd_hi; lra).
    set (q := rnd32 (/ b2r h)) in *.
    destruct (fsub_spec (fdiv f1 h) f1 Fq F1) as (Ed & Fd).
    { rewrite Eq, V1. apply big127. rewrite Rabs_pos_eq by lra. lra. }
    rewrite Eq, V1 in Ed.
    assert (0 <= rnd32 (q - 1) <= (q - 1) * (1 + U) + bpow radix2 (-150)) as De by (apply rnd_hi; lra).
    assert (rep32 q) as Rq by (rewrite <- Eq; apply rep32_b2r).
    assert (rnd32 (q - 1) <= q) as D by (apply rnd32_le_r; auto; lra).
    destruct (fopp_spec (fsub (fdiv f1 h) f1)) as (Eo & Fop). specialize (Fop Fd).
    rewrite Ed in Eo. set (d := rnd32 (q - 1)) in *.
    assert (bpow radix2 126 <= bpow radix2 127) by (apply bpow_le; lia).
    assert (0 <= d * b2r o) as P0 by (apply Rmult_le_pos; tauto).
    assert (d * b2r o <= d * 1) as P1 by (apply Rmult_le_compat_l; tauto).
    destruct (fmul_spec (fopp (fsub (fdiv f1 h) f1)) o Fop Fo) as (Em & Fm).
    { rewrite Eo. replace (- d * b2r o) with (- (d * b2r o)) by ring. rewrite Rabs_Ropp, Rabs_pos_eq by auto. lra. }
    rewrite Eo in Em. replace (- d * b2r o) with (- (d * b2r o)) in Em by ring. rewrite rnd32_opp in Em.
    assert (0 <= rnd32 (d * b2r o) <= d * b2r o * (1 + U) + bpow radix2 (-150)) as N1 by (apply rnd_hi; auto).
    set (m := rnd32 (d * b2r o)) in *.
    assert (0 <= b2r rr * m) as P2 by (apply Rmult_le_pos; tauto).
    assert (rnd32 (b2r rr * m) <= b2r rr * m * (1 + U) + bpow radix2 (-150)) as N2 by (apply rnd_hi; auto).
    assert (0 <= rnd32 (b2r rr * m)) as N3 by (apply nonneg_rnd; auto).
    pose proof tiny_U as TU. assert (0 <= bpow radix2 (-150)) as T0 by apply bpow_ge_0.
    set (t := bpow radix2 (-150)) in *.
    assert (0 < U <= / 1000000) as UP by (unfold U; lra).
    assert (b2r rr * m <= (1 - b2r h) * b2r o + 8 * U) as X.
    { apply (near_real (b2r h) (b2r o) q d m (b2r rr * m) (b2r rr) t); try tauto; try lra.
      assert (0 <= b2r rr * m * U) by (apply Rmult_le_pos; lra). lra. }
    assert (rnd32 (b2r rr * m) <= (1 - b2r h) * b2r o + 8 * U) as Y.
    { apply (near_real (b2r h) (b2r o) q d m (rnd32 (b2r rr * m)) (b2r rr) t); try tauto; try lra. }
    assert (0 <= (1 - b2r h) * b2r o <= 1 * 1) as Z.
    { split; [apply Rmult_le_pos; lra|apply Rmult_le_compat; lra]. }
    assert (fin (fmul f1 o) /\ b2r (fmul f1 o) = b2r o) as (Fo1 & Eo1).
    { destruct seg1_eq as [-> | (A & B)]; auto. }
    destruct (fmul_spec rr (fmul (fopp (fsub (fdiv f1 h) f1)) o) Fr Fm) as (Ep & Fp).
    { rewrite Em. apply big127. eapply Rle_trans; [|apply (bpow_le radix2 1); lia].
      replace (b2r rr * - m) with (- (b2r rr * m)) by ring. rewrite Rabs_Ropp, Rabs_pos_eq by auto. simpl. lra. }
    rewrite Em in Ep. replace (b2r rr * - m) with (- (b2r rr * m)) in Ep by ring. rewrite rnd32_opp in Ep.
    set (p := rnd32 (b2r rr * m)) in *.
    assert (Rabs (b2r o + - p) <= 2) as AB by (apply Rabs_le; lra).
    destruct (fadd_spec (fmul f1 o) (fmul rr (fmul (fopp (fsub (fdiv f1 h) f1)) o)) Fo1 Fp) as (Ev & Fv).
    { rewrite Eo1, Ep. apply big127. eapply Rle_trans; [|apply (bpow_le radix2 1); lia]. simpl. lra. }
    rewrite Ev, Eo1, Ep. pose proof (rnd_unit_err _ AB) as E4. apply Rabs_le_inv in E4. lra.
  Qed.

  Lemma opa_range : forall rr, nonneg_f rr ->
    fin (calculate_opa rr h (segments h s)) /\ - / 1048576 <= b2r (calculate_opa rr h (segments h s)) <= 1.
  Proof.
    intros rr Hr. destruct f1_val as (V1 & F1). destruct f0_val as (V0 & F0).
    unfold calculate_opa, segments. fold o.
    destruct Hr as [(Fr & Hr)| ->].
    - rewrite flt_spec, fle_spec by auto. rewrite V1.
      destruct (Rlt_bool_spec 1 (b2r rr)) as [L|L].
      { rewrite V0. split; auto. lra. }
      destruct (Rle_bool_spec (b2r rr) (b2r h)) as [M|M].
      + apply near_ok; auto.
      + destruct (far_ok rr Fr) as (A & B & _); [lra|]. split; auto. lra.
    - change (flt f1 (B754_infinity false)) with true. cbv iota.
      rewrite V0. split; auto. lra.
  Qed.

  (** inside one segment the computed opacity never increases *)
  Lemma near_mono : forall r1 r2, fin r1 -> fin r2 -> 0 <= b2r r1 <= b2r r2 -> b2r r2 <= b2r h ->
    b2r (fadd (fmul f1 o) (fmul r2 (fmul (fopp (fsub (fdiv f1 h) f1)) o))) <=
    b2r (fadd (fmul f1 o) (fmul r1 (fmul (fopp (fsub (fdiv f1 h) f1)) o))).
  Proof.
    intros r1 r2 F1 F2 H12 H2.
    destruct o_val as (Fo & Ho). pose proof h_pos as Hp.
    destruct slope1 as (d & Hd & Fs1 & Es1 & Hd2).
    set (s1 := fmul (fopp (fsub (fdiv f1 h) f1)) o) in *.
    assert (fin (fmul f1 o) /\ b2r (fmul f1 o) = b2r o) as (Fo1 & Eo1).
    { destruct seg1_eq as [-> | (A & B)]; auto. }
    assert (0 <= d * b2r o) as P0 by (apply Rmult_le_pos; lra).
    pose proof (rnd_hi _ P0) as N1.
    set (m := rnd32 (d * b2r o)) in *.
    (* products stay below 2, reuse near_ok's reasoning *)
    assert (forall r : f32, fin r -> 0 <= b2r r <= b2r h ->
              fin (fmul r s1) /\ b2r (fmul r s1) = - rnd32 (b2r r * m) /\ 0 <= rnd32 (b2r r * m) <= 2) as K.
    { intros r Fr Hr.
      pose proof tiny_U as TU. assert (0 <= bpow radix2 (-150)) as T0 by apply bpow_ge_0.
      set (t := bpow radix2 (-150)) in *.
      assert (0 < U <= / 1000000) as UP by (unfold U; lra).
      assert (0 <= b2r r * m <= 3 / 2) as B.
      { split; [apply Rmult_le_pos; lra|].
        apply Rle_trans with (b2r h * m); [apply Rmult_le_compat_r; lra|].
        apply Rle_trans with (b2r h * (d * b2r o * (1 + U) + t)); [apply Rmult_le_compat_l; lra|].
        assert (b2r h * d <= 1 + U + t) as HD.
        { apply Rle_trans with (b2r h * (/ b2r h * (1 + U) + t)); [apply Rmult_le_compat_l; lra|].
          rewrite Rmult_plus_distr_l, <- Rmult_assoc, Rinv_r by lra.
          assert (b2r h * t <= 1 * t) by (apply Rmult_le_compat_r; lra). lra. }
        assert (b2r h * t <= 1 * t) by (apply Rmult_le_compat_r; lra).
        assert (0 <= b2r h * d) by (apply Rmult_le_pos; lra).
        assert (b2r h * d * b2r o <= (1 + U + t) * 1) by (apply Rmult_le_compat; lra).
        replace (b2r h * (d * b2r o * (1 + U) + t)) with (b2r h * d * b2r o + b2r h * d * b2r o * U + b2r h * t) by ring.
        assert (b2r h * d * b2r o * U <= (1 + U + t) * 1 * U) by (apply Rmult_le_compat_r; lra).
        assert ((1 + U + t) * 1 * U <= 2 * U) by (apply Rmult_le_compat_r; lra). lra. }
      destruct (fmul_spec r s1 Fr Fs1) as (Ep & Fp).
      { rewrite Es1. apply big127. eapply Rle_trans; [|apply (bpow_le radix2 1); lia].
        replace (b2r r * - m) with (- (b2r r * m)) by ring. rewrite Rabs_Ropp, Rabs_pos_eq by tauto. simpl. lra. }
      split; auto. rewrite Ep, Es1. replace (b2r r * - m) with (- (b2r r * m)) by ring. rewrite rnd32_opp.
      split; auto. split; [apply nonneg_rnd; tauto|]. apply rnd32_le_r; [apply (rep32_IZR 2); lia|lra]. }
    destruct (K r1 F1) as (A1 & B1 & C1); [lra|]. destruct (K r2 F2) as (A2 & B2 & C2); [lra|].
    destruct (fadd_spec (fmul f1 o) (fmul r1 s1) Fo1 A1) as (E1 & _).
    { rewrite Eo1, B1. apply big127. eapply Rle_trans; [|apply (bpow_le radix2 2); lia]. simpl. apply Rabs_le. lra. }
    destruct (fadd_spec (fmul f1 o) (fmul r2 s1) Fo1 A2) as (E2 & _).
    { rewrite Eo1, B2. apply big127. eapply Rle_trans; [|apply (bpow_le radix2 2); lia]. simpl. apply Rabs_le. lra. }
    rewrite E1, E2, Eo1, B1, B2. apply rnd32_le.
    assert (rnd32 (b2r r1 * m) <= rnd32 (b2r r2 * m)); [|lra].
    apply rnd32_le. apply Rmult_le_compat_r; lra.
  Qed.

  Lemma far_mono : forall r1 r2, fin r1 -> fin r2 -> b2r h < b2r r1 <= b2r r2 -> b2r r2 <= 1 ->
    b2r (fadd (fmul (fdiv h (fsub f1 h)) o) (fmul r2 (fmul (fdiv (fopp h) (fsub f1 h)) o))) <=
    b2r (fadd (fmul (fdiv h (fsub f1 h)) o) (fmul r1 (fmul (fdiv (fopp h) (fsub f1 h)) o))).
  Proof.
    intros r1 r2 G1 G2 H12 H2.
    destruct (far_parts ltac:(lra)) as (O2 & HO2 & Fm & Em & Fm' & Em').
    set (A := fmul (fdiv h (fsub f1 h)) o) in *. set (B := fmul (fdiv (fopp h) (fsub f1 h)) o) in *.
    pose proof h_pos as Hp.
    assert (forall r : f32, fin r -> 0 <= b2r r <= 1 ->
       b2r (fadd A (fmul r B)) = rnd32 (O2 - rnd32 (b2r r * O2))) as K.
    { intros r Fr Hr.
      assert (0 <= b2r r * O2 <= 16777216) as RB.
      { split; [apply Rmult_le_pos; lra|]. apply Rle_trans with (1 * 16777216); [apply Rmult_le_compat; lra|lra]. }
      assert (0 <= rnd32 (b2r r * O2) <= 16777216) as PB.
      { split; [apply nonneg_rnd; tauto|]. apply rnd32_le_r; [apply rep32_IZR; lia|tauto]. }
      destruct (fmul_spec r B Fr Fm') as (Ep & Fp).
      { rewrite Em'. replace (b2r r * - O2) with (- (b2r r * O2)) by ring. rewrite Rabs_Ropp. apply big127. rewrite Rabs_pos_eq by lra.
        apply Rle_trans with 16777216; [lra|]. change 16777216 with (bpow radix2 24). apply bpow_le. lia. }
      rewrite Em' in Ep. replace (b2r r * - O2) with (- (b2r r * O2)) in Ep by ring. rewrite rnd32_opp in Ep.
      destruct (fadd_spec _ _ Fm Fp) as (Ev & _).
      { rewrite Em, Ep. apply big127. apply Rle_trans with 16777216; [apply Rabs_le; lra|]. change 16777216 with (bpow radix2 24). apply bpow_le. lia. }
      rewrite Ev, Em, Ep. reflexivity. }
    rewrite !K by (auto; lra). apply rnd32_le.
    assert (rnd32 (b2r r1 * O2) <= rnd32 (b2r r2 * O2)); [|lra].
    apply rnd32_le. apply Rmult_le_compat_r; lra.
  Qed.

  Lemma opa_u16_range : forall rr, nonneg_f rr ->
    exists v, opa_u16 (calculate_opa rr h (segments h s)) = Ok v /\ (0 <= v <= 32768)%Z.
  Proof.
    intros rr Hr. destruct (opa_range rr Hr) as (Fv & Hv).
    set (v := calculate_opa rr h (segments h s)) in *.
    destruct (f_of_Z_exact ONE) as (VO & FO); [rewrite ONE_val; lia|].
    change (IZR ONE) with 32768 in VO.
    unfold opa_u16, f_to_u16.
    destruct (fmul_spec v (f_of_Z ONE) Fv FO) as (E & F).
    { rewrite VO. apply big127. apply Rle_trans with 32768; [apply Rabs_le; lra|].
      change 32768 with (bpow radix2 15). apply bpow_le. lia. }
    rewrite VO in E.
    assert (- / 32 <= rnd32 (b2r v * 32768) <= 32768) as B.
    { split.
      - apply rnd32_ge_r; [|lra]. replace (- / 32) with (IZR (-1) * bpow radix2 (-5)) by (simpl; lra). apply rep32_scaled; lia.
      - apply rnd32_le_r; [apply rep32_IZR; lia|]. lra. }
    assert (0 <= Ztrunc (b2r (fmul v (f_of_Z ONE))) <= 32768)%Z as T.
    { rewrite E. apply Ztrunc_between; try lia; simpl; lra. }
    rewrite f_to_Z_ok; auto; [|lia]. eexists. split; [reflexivity|auto].
  Qed.
  (** what is computed at the centre, and from the edge on *)
  Lemma opa_centre : forall rr, fin rr -> b2r rr = 0 ->
    b2r (calculate_opa rr h (segments h s)) = b2r o.
  Proof.
    intros rr Fr Hr. destruct f1_val as (V1 & F1). pose proof h_pos as Hp. destruct o_val as (Fo & Ho).
    unfold calculate_opa, segments. fold o. rewrite flt_spec, fle_spec by auto. rewrite V1, Hr.
    rewrite Rlt_bool_false, Rle_bool_true by lra.
    destruct slope1 as (d & Hd & Fs1 & Es1 & Hd2).
    set (s1 := fmul (fopp (fsub (fdiv f1 h) f1)) o) in *.
    assert (fin (fmul f1 o) /\ b2r (fmul f1 o) = b2r o) as (Fo1 & Eo1).
    { destruct seg1_eq as [-> | (A & B)]; auto. }
    destruct (fmul_spec rr s1 Fr Fs1) as (Ep & Fp).
    { rewrite Hr, Rmult_0_l, Rabs_R0. apply bpow_ge_0. }
    rewrite Hr, Rmult_0_l in Ep. rewrite rnd32_id in Ep by (apply (rep32_IZR 0); lia).
    destruct (fadd_spec _ _ Fo1 Fp) as (Ev & _).
    { rewrite Eo1, Ep. apply big127. eapply Rle_trans; [|apply (bpow_le radix2 1); lia]. simpl. apply Rabs_le. lra. }
    rewrite Ev, Eo1, Ep, Rplus_0_r. apply rnd32_id. apply rep32_b2r.
  Qed.

  Lemma opa_edge : forall rr, (fin rr /\ 1 <= b2r rr) \/ rr = B754_infinity false ->
    b2r h < 1 \/ (fin rr /\ 1 < b2r rr) \/ rr = B754_infinity false ->
    b2r (calculate_opa rr h (segments h s)) = 0.
  Proof.
    intros rr Hr Hh1. destruct f1_val as (V1 & F1). destruct f0_val as (V0 & F0).
    unfold calculate_opa, segments. fold o.
    destruct Hr as [(Fr & Hr)| ->].
    2:{ change (flt f1 (B754_infinity false)) with true. cbv iota. auto. }
    rewrite flt_spec, fle_spec by auto. rewrite V1.
    destruct (Rlt_bool_spec 1 (b2r rr)) as [L|L]; auto.
    assert (b2r rr = 1) as R1 by lra.
    assert (b2r h < 1) as H1.
    { destruct Hh1 as [?|[(_ & ?)| ->]]; auto; [lra|]. unfold fin in Fr. simpl in Fr. discriminate. }
    rewrite Rle_bool_false by lra.
    destruct (far_parts H1) as (O2 & HO2 & Fm & Em & Fm' & Em').
    set (A := fmul (fdiv h (fsub f1 h)) o) in *. set (B := fmul (fdiv (fopp h) (fsub f1 h)) o) in *.
    assert (bpow radix2 24 <= bpow radix2 126) as B24 by (apply bpow_le; lia).
    change (bpow radix2 24) with 16777216 in B24.
    destruct (fmul_spec rr B Fr Fm') as (Ep & Fp).
    { rewrite Em', R1, Rmult_1_l, Rabs_Ropp. apply big127. rewrite Rabs_pos_eq by lra. lra. }
    rewrite R1, Rmult_1_l, rnd32_id in Ep by apply rep32_b2r.
    destruct (fadd_spec _ _ Fm Fp) as (Ev & _).
    { rewrite Em, Ep, Em'. replace (O2 + - O2) with 0 by ring. rewrite Rabs_R0. apply bpow_ge_0. }
    rewrite Ev, Ep, Em, Em'. replace (O2 + - O2) with 0 by ring. apply rnd32_id. apply (rep32_IZR 0). lia.
  Qed.

  (** the 16-bit value, as a function of the opacity *)
  Lemma opa_u16_val : forall v : f32, fin v -> - / 1048576 <= b2r v <= 1 ->
    exists z, opa_u16 v = Ok z /\ z = Ztrunc (rnd32 (b2r v * 32768)).
  Proof.
    intros v Fv Hv. destruct (f_of_Z_exact ONE) as (VO & FO); [rewrite ONE_val; lia|].
    change (IZR ONE) with 32768 in VO. unfold opa_u16, f_to_u16.
    destruct (fmul_spec v (f_of_Z ONE) Fv FO) as (E & F).
    { rewrite VO. apply big127. apply Rle_trans with 32768; [apply Rabs_le; lra|].
      change 32768 with (bpow radix2 15). apply bpow_le. lia. }
    rewrite VO in E.
    assert (- / 32 <= rnd32 (b2r v * 32768) <= 32768) as B.
    { split.
      - apply rnd32_ge_r; [|lra]. replace (- / 32) with (IZR (-1) * bpow radix2 (-5)) by (simpl; lra). apply rep32_scaled; lia.
      - apply rnd32_le_r; [apply rep32_IZR; lia|]. lra. }
    assert (0 <= Ztrunc (b2r (fmul v (f_of_Z ONE))) <= 32768)%Z as T.
    { rewrite E. apply Ztrunc_between; try lia; simpl; lra. }
    rewrite f_to_Z_ok; auto; [|lia]. eexists. split; [reflexivity|]. rewrite E. reflexivity.
  Qed.

  Lemma trunc_step : forall a b, - / 2 <= a -> - / 2 <= b -> b <= a + / 2 -> (Ztrunc b <= Ztrunc a + 1)%Z.
  Proof.
    intros a b Ha Hb H.
    assert (Ztrunc b <= Ztrunc (a + 1))%Z as S by (apply Ztrunc_le; lra).
    destruct (Rle_lt_dec 0 a) as [L|L].
    - rewrite (Ztrunc_floor (a + 1)), (Ztrunc_floor a) in * by lra.
      replace (a + 1) with (a + IZR 1) in S by (simpl; lra).
      assert (Zfloor (a + 1) <= Zfloor a + 1)%Z; [|lia].
      apply Z.lt_succ_r. apply lt_IZR. rewrite <- Z.add_1_r, !plus_IZR.
      pose proof (Zfloor_lb (a + 1)). pose proof (Zfloor_ub a). lra.
    - assert (Ztrunc b <= 0)%Z.
      { destruct (Rle_lt_dec 0 b).
        - rewrite Ztrunc_floor by auto. apply Zlt_succ_le. apply lt_IZR. pose proof (Zfloor_lb b).
          apply Rle_lt_trans with b; auto. simpl. lra.
        - rewrite Ztrunc_ceil by lra. rewrite <- (Zceil_IZR 0). apply Zceil_le. simpl. lra. }
      assert (-1 <= Ztrunc a)%Z; [|lia].
      rewrite Ztrunc_ceil by lra. apply le_IZR. pose proof (Zceil_ub a). simpl.
      apply Rle_trans with a; lra.
  Qed.

  (** going outwards the mask value grows by at most one unit of 2^-15, and not
      at all within one segment *)
  Lemma opa_steps : forall r1 r2, nonneg_f r1 -> nonneg_f r2 -> (fin r2 -> fin r1 /\ b2r r1 <= b2r r2) ->
    exists v1 v2, opa_u16 (calculate_opa r1 h (segments h s)) = Ok v1 /\
      opa_u16 (calculate_opa r2 h (segments h s)) = Ok v2 /\ (v2 <= v1 + 1)%Z /\
      (fin r2 -> b2r r2 <= b2r h \/ b2r h < b2r r1 -> (v2 <= v1)%Z).
  Proof.
    intros r1 r2 N1 N2 LE.
    destruct (opa_range r1 N1) as (A1 & B1). destruct (opa_range r2 N2) as (A2 & B2).
    destruct (opa_u16_val _ A1 B1) as (v1 & E1 & V1). destruct (opa_u16_val _ A2 B2) as (v2 & E2 & V2).
    exists v1, v2. split; [auto|]. split; [auto|].
    destruct (opa_u16_range r1 N1) as (w1 & W1 & R1). rewrite W1 in E1. injection E1 as ->.
    (* the opacities themselves *)
    destruct f1_val as (VV & FF). destruct f0_val as (V0 & F0). pose proof h_pos as Hp.
    assert (Zero : b2r (calculate_opa r2 h (segments h s)) = 0 -> v2 = 0%Z).
    { intros Z0. rewrite V2, Z0, Rmult_0_l, rnd32_id by (apply (rep32_IZR 0); lia).
      replace 0 with (IZR 0) by reflexivity. apply Ztrunc_IZR. }
    destruct N2 as [(G2 & P2)| ->].
    2:{ rewrite Zero by (apply opa_edge; auto). split; [lia|]. intros X; unfold fin in X; simpl in X; discriminate. }
    destruct (LE G2) as (G1 & L12).
    assert (0 <= b2r r1) as P1 by (destruct N1 as [(?&?)| ->]; [auto|unfold fin in G1; simpl in G1; discriminate]).
    destruct (Rlt_le_dec 1 (b2r r2)) as [Big|Small].
    { rewrite Zero; [|apply opa_edge; [left; split; auto; lra|auto]]. split; [lia|intros; lia]. }
    assert (0 < U <= / 1000000) as UP by (unfold U; lra).
    assert (MONO : b2r (calculate_opa r2 h (segments h s)) <= b2r (calculate_opa r1 h (segments h s)) -> (v2 <= v1)%Z).
    { intros M. rewrite V1, V2. apply Ztrunc_le. apply rnd32_le. lra. }
    destruct (Rle_lt_dec (b2r r2) (b2r h)) as [K|K].
    { assert (v2 <= v1)%Z; [|split; [lia|auto]]. apply MONO.
      unfold calculate_opa, segments. fold o. rewrite !flt_spec, !fle_spec by auto. rewrite VV.
      rewrite !Rlt_bool_false, !Rle_bool_true by lra. apply near_mono; auto. }
    destruct (Rle_lt_dec (b2r r1) (b2r h)) as [K1|K1].
    2:{ assert (v2 <= v1)%Z; [|split; [lia|auto]]. apply MONO.
      unfold calculate_opa, segments. fold o. rewrite !flt_spec, !fle_spec by auto. rewrite VV.
      rewrite !Rlt_bool_false, !Rle_bool_false by lra. apply far_mono; auto. }
    split; [|intros _ [?|?]; lra].
    assert (b2r (calculate_opa r2 h (segments h s)) <= b2r (calculate_opa r1 h (segments h s)) + 18 * U) as M.
    { unfold calculate_opa, segments. fold o. rewrite !flt_spec, !fle_spec by auto. rewrite VV.
      rewrite !Rlt_bool_false by lra. rewrite (Rle_bool_true (b2r r1)), (Rle_bool_false (b2r r2)) by lra.
      destruct (far_ok r2 G2) as (_ & _ & X); [lra|]. pose proof (near_low r1 G1 (conj P1 K1)). lra. }
    assert (NE : forall x, -1 <= x <= 1 -> x * 32768 - / 256 <= rnd32 (x * 32768) <= x * 32768 + / 256).
    { intros x Hx. assert (Rabs (x * 32768) <= bpow radix2 15) as Q by (apply Rabs_le; simpl; lra).
      pose proof (rnd32_err _ _ Q) as E. change (bpow radix2 (15 - 25)) with (/ 1024) in E.
      assert (-125 <= 15)%Z as L by lia. specialize (E L). apply Rabs_le_inv in E. lra. }
    rewrite V1, V2.
    assert (-1 <= b2r (calculate_opa r1 h (segments h s)) <= 1) as Y1 by lra.
    assert (-1 <= b2r (calculate_opa r2 h (segments h s)) <= 1) as Y2 by lra.
    pose proof (NE _ Y1). pose proof (NE _ Y2).
    apply trunc_step; unfold U in *; lra.
  Qed.
End Profile.
