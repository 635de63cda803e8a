(** Proofs about the rectangle indices of the symmetry pass. *)
From Verif Require Import Base F32 F32Proofs Arith Rect P_Rect Symmetry SymmetryProofs.
From Coq Require Import Reals Lra ZifyBool.
From Flocq Require Import Core.Core IEEE754.BinarySingleNaN.
Local Open Scope Z_scope.

Lemma froundf_floor : forall x : f32, fin x -> (0 <= b2r x)%R ->
  fin (froundf x) /\ b2r (froundf x) = IZR (Zfloor (b2r x + / 2)).
Proof.
  intros x F H0. destruct x as [s|s| |s m e H]; try discriminate F.
  - split; [reflexivity|]. change (b2r (froundf (B754_zero s))) with 0%R. cbn [B2R]. symmetry. f_equal. apply Zfloor_imp. split; change (IZR 0) with 0%R; change (IZR (0+1)) with 1%R; lra.
  - cbn [froundf]. assert (s = false) as ->.
    { destruct s; auto. exfalso. assert (b2r (B754_finite true m e H : f32) < 0)%R; [|lra].
      cbn [B2R cond_Zopp]. apply F2R_lt_0. reflexivity. }
    cbn [B2R cond_Zopp]. unfold F2R. cbn [Fnum Fexp].
    destruct (Z.leb_spec 0 e).
    + split; [reflexivity|]. cbn [B2R cond_Zopp]. unfold F2R. cbn [Fnum Fexp].
      assert (IZR (Zpos m) * bpow radix2 e = IZR (Zpos m * 2 ^ e))%R as Eb by (rewrite mult_IZR; f_equal; apply bpow_Z; auto).
      rewrite Eb. f_equal. symmetry. apply Zfloor_imp. rewrite plus_IZR. split; lra.
    + set (q := (2 * Zpos m + 2 ^ (- e)) / 2 ^ (1 - e)).
      assert (0 < 2 ^ (1 - e)) by (apply Z.pow_pos_nonneg; lia). assert (0 < 2 ^ (- e)) by (apply Z.pow_pos_nonneg; lia).
      assert (0 <= q) by (apply Z.div_pos; lia).
      assert (Zpos m < 16777216).
      { assert (Zpos m < 2 ^ 24); [|auto]. pose proof (proj1 (andb_prop _ _ H)) as Hb. unfold SpecFloat.canonical_mantissa in Hb.
        apply Zeq_bool_eq in Hb. unfold SpecFloat.fexp, SpecFloat.emin in Hb.
        rewrite Digits.Zpos_digits2_pos in Hb.
        change (Zpos m) with (Z.abs (Zpos m)). apply (Digits.Zpower_gt_Zdigits radix2 24). lia. }
      assert (2 ^ (1 - e) = 2 * 2 ^ (- e)) as Ep by (rewrite <- Z.pow_succ_r by lia; f_equal; lia).
      assert (q <= 16777216).
      { unfold q. rewrite Ep.
        assert (2 <= 2 ^ (- e)) by (change 2 with (2 ^ 1) at 1; apply Z.pow_le_mono_r; lia).
        assert ((2 * Zpos m + 2 ^ (- e)) / (2 * 2 ^ (- e)) < 16777217); [|lia]. apply Z.div_lt_upper_bound; nia. }
      destruct (f_of_Z_exact q) as (V & Fq); [lia|]. split; [exact Fq|]. rewrite V. f_equal. symmetry. apply Zfloor_imp.
      assert (bpow radix2 e = / IZR (2 ^ (- e)))%R as ->.
      { rewrite <- (bpow_Z (- e)) by lia. rewrite bpow_opp, Rinv_involutive; auto. apply Rgt_not_eq, bpow_gt_0. }
      set (P := 2 ^ (- e)) in *. assert (0 < IZR P)%R as RP by (apply IZR_lt; lia).
      assert (2 * P * q <= 2 * Zpos m + P < 2 * P * (q + 1)) as (Q1 & Q2).
      { unfold q. rewrite Ep. pose proof (Z.div_mod (2 * Zpos m + P) (2 * P) ltac:(lia)).
        pose proof (Z.mod_pos_bound (2 * Zpos m + P) (2 * P) ltac:(lia)). lia. }
      apply IZR_le in Q1. apply IZR_lt in Q2. rewrite !mult_IZR, !plus_IZR, !mult_IZR in *.
      assert (IZR (Zpos m) * / IZR P * IZR P = IZR (Zpos m))%R as E1 by (rewrite Rmult_assoc, Rinv_l; lra).
      set (z := (IZR (Zpos m) * / IZR P)%R) in *. rewrite <- E1 in Q1, Q2.
      split; [apply Rmult_le_reg_l with (2 * IZR P)%R|apply Rmult_lt_reg_l with (2 * IZR P)%R]; lra.
Qed.

Lemma pow127 : bpow radix2 127 = 170141183460469231731687303715884105728%R. Proof. reflexivity. Qed.

Lemma div_bounds : forall a b, (0 <= a <= 16777216 -> 1 <= b -> 0 <= a / b <= 16777216)%R.
Proof.
  intros a b Ha Hb. split; [apply Rmult_le_pos; [lra|left; apply Rinv_0_lt_compat; lra]|].
  apply Rmult_le_reg_r with b; [lra|]. unfold Rdiv. rewrite Rmult_assoc, Rinv_l by lra. nra.
Qed.

Lemma per_rot_ok : forall k lines boxes, 0 <= k * lines <= 16777216 -> 1 <= boxes <= 16777216 ->
  fin (per_bbox_rot k lines boxes) /\ (1 <= b2r (per_bbox_rot k lines boxes) <= 16777216)%R /\
  (k * lines <= boxes -> b2r (per_bbox_rot k lines boxes) = 1%R).
Proof.
  intros k lines boxes Hl Hb. unfold per_bbox_rot. rewrite fl_small by lia.
  destruct (f_of_Z_exact (k * lines)) as (Vl & Fl); [lia|]. destruct (f_of_Z_exact boxes) as (Vb & Fb); [lia|].
  destruct (f_of_Z_exact 1) as (V1 & F1); [lia|].
  assert (0 <= IZR (k * lines) <= 16777216)%R as Rl by (split; apply IZR_le; lia).
  assert (1 <= IZR boxes)%R as Rb by (apply IZR_le; lia).
  pose proof (div_bounds _ _ Rl Rb) as Hq.
  destruct (fdiv_spec (f_of_Z (k * lines)) (f_of_Z boxes) Fl) as (Vq & Fq).
  { rewrite Vb. lra. } { rewrite Vl, Vb, Rabs_pos_eq by lra. rewrite pow127. lra. }
  rewrite Vl, Vb in Vq.
  assert (b2r (fdiv (f_of_Z (k * lines)) (f_of_Z boxes)) <= 16777216)%R as Q2.
  { rewrite Vq. apply rnd32_le_r; [apply (rep32_IZR 16777216); lia|lra]. }
  cbv zeta. rewrite flt_spec, V1 by auto.
  destruct (Rlt_bool_spec (b2r (fdiv (f_of_Z (k * lines)) (f_of_Z boxes))) 1).
  - rewrite V1. split; [exact F1|]. split; [lra|auto].
  - split; [exact Fq|]. split; [lra|]. intros Hle.
    apply Rle_antisym; [|lra]. rewrite Vq. apply rnd32_le_r; [apply (rep32_IZR 1); lia|].
    apply IZR_le in Hle. apply Rmult_le_reg_r with (IZR boxes); [lra|]. unfold Rdiv. rewrite Rmult_assoc, Rinv_l by lra. lra.
Qed.

Lemma per_snow_ok : forall lines boxes, 0 <= 2 * lines <= 16777216 -> 1 <= boxes <= 16777216 ->
  fin (per_bbox_snow lines boxes) /\ (1 <= b2r (per_bbox_snow lines boxes) <= 16777216)%R /\
  (2 * lines <= boxes -> b2r (per_bbox_snow lines boxes) = 1%R).
Proof.
  intros lines boxes Hl Hb. unfold per_bbox_snow.
  destruct (d_of_Z_exact lines) as (Vl & Fl); [lia|]. destruct (d_of_Z_exact boxes) as (Vb & Fb); [lia|].
  destruct (d_of_Z_exact 1) as (V1 & F1); [lia|]. destruct (d_of_Z_exact 2) as (V2 & F2); [lia|].
  destruct (dmul_spec (d_of_Z lines) (d_of_Z 2) Fl F2) as (Vm & Fm).
  { rewrite Vl, V2, <- mult_IZR. rewrite <- abs_IZR. apply Rle_trans with 16777216%R; [apply IZR_le; lia|].
    change 16777216%R with (bpow radix2 24). apply bpow_le. lia. }
  rewrite Vl, V2, <- mult_IZR, rnd64_id in Vm by (apply rep64_IZR; lia).
  assert (0 <= IZR (lines * 2) <= 16777216)%R as Rl by (split; apply IZR_le; lia).
  assert (1 <= IZR boxes)%R as Rb by (apply IZR_le; lia).
  pose proof (div_bounds _ _ Rl Rb) as Hq.
  destruct (ddiv_spec (dmul (d_of_Z lines) (d_of_Z 2)) (d_of_Z boxes) Fm) as (Vq & Fq).
  { rewrite Vb. lra. } { rewrite Vm, Vb, Rabs_pos_eq by lra. apply Rle_trans with (bpow radix2 127); [rewrite pow127; lra|apply bpow_le; lia]. }
  rewrite Vm, Vb in Vq. set (q := ddiv _ _) in *.
  assert (b2r q <= 16777216)%R as Q2. { rewrite Vq. apply rnd64_le_r; [apply (rep64_IZR 16777216); lia|lra]. }
  cbv zeta. rewrite dlt_spec, V1 by auto.
  assert (b2r (f_of_d (d_of_Z 1)) = 1%R /\ fin (f_of_d (d_of_Z 1))) as (Vf1 & Ff1).
  { destruct (f_of_d_spec (d_of_Z 1) F1) as (A & B); [rewrite V1, pow127, Rabs_R1; lra|]. split; [|exact B].
    rewrite A, V1. apply rnd32_id, (rep32_IZR 1). lia. }
  destruct (Rlt_bool_spec (b2r q) 1).
  - rewrite Vf1. split; [exact Ff1|]. split; [lra|auto].
  - destruct (f_of_d_spec q Fq) as (A & B); [rewrite Rabs_pos_eq by lra; rewrite pow127; lra|].
    split; [exact B|]. rewrite A. split.
    + split; [apply rnd32_ge_r; [apply (rep32_IZR 1); lia|lra]|apply rnd32_le_r; [apply (rep32_IZR 16777216); lia|lra]].
    + intros Hle. assert (b2r q = 1%R) as ->.
      { apply Rle_antisym; [|lra]. rewrite Vq. apply rnd64_le_r; [apply (rep64_IZR 1); lia|].
        apply Rmult_le_reg_r with (IZR boxes); [lra|]. unfold Rdiv. rewrite Rmult_assoc, Rinv_l by lra.
        apply IZR_le in Hle. rewrite Z.mul_comm. lra. }
      apply rnd32_id, (rep32_IZR 1). lia.
Qed.

Lemma box_slot_ok : forall per boxes i, fin per -> (1 <= b2r per <= 16777216)%R -> 1 <= boxes <= 16777216 -> 0 <= i <= 16777216 ->
  exists z, 0 <= z <= boxes - 1 /\ z <= i /\ fin (box_slot per boxes i) /\ b2r (box_slot per boxes i) = IZR z /\
    (b2r per = 1%R -> z = Z.min i (boxes - 1)).
Proof.
  intros per boxes i Fp Hp Hb Hi. unfold box_slot.
  destruct (f_of_Z_exact i) as (Vi & Fi); [lia|]. destruct (f_of_Z_exact (boxes - 1)) as (Vk & Fk); [lia|].
  assert (0 <= IZR i <= 16777216)%R as Ri by (split; apply IZR_le; lia).
  pose proof (div_bounds _ _ Ri (proj1 Hp)) as Hd.
  destruct (fdiv_spec (f_of_Z i) per Fi) as (Vd & Fd).
  { lra. } { rewrite Vi, Rabs_pos_eq by lra. rewrite pow127. lra. }
  rewrite Vi in Vd.
  assert (0 <= b2r (fdiv (f_of_Z i) per) <= IZR i)%R as D0.
  { rewrite Vd. split; [apply rnd32_ge_r; [apply (rep32_IZR 0); lia|lra]|].
    apply rnd32_le_r; [apply rep32_IZR; lia|]. apply Rmult_le_reg_r with (b2r per); [lra|]. unfold Rdiv. rewrite Rmult_assoc, Rinv_l by lra. nra. }
  destruct (froundf_floor _ Fd (proj1 D0)) as (Fr & Vr).
  set (z := Zfloor (b2r (fdiv (f_of_Z i) per) + / 2)) in *.
  assert (0 <= z) as Hz. { apply Zfloor_lub. change (IZR 0) with 0%R. lra. }
  assert (z <= i) as Hzi.
  { assert (z < i + 1); [|lia]. apply lt_IZR. rewrite plus_IZR. apply Rle_lt_trans with (b2r (fdiv (f_of_Z i) per) + / 2)%R; [apply Zfloor_lb|lra]. }
  cbv zeta. rewrite flt_spec, Vk, Vr by auto.
  assert (b2r per = 1%R -> z = i) as H1.
  { intros E. unfold z. rewrite Vd, E. replace (IZR i / 1)%R with (IZR i) by field. rewrite rnd32_id by (apply rep32_IZR; lia).
    apply Zfloor_imp. rewrite plus_IZR. lra. }
  destruct (Rlt_bool_spec (IZR z) (IZR (boxes - 1))) as [L|L].
  - apply lt_IZR in L. exists z. split; [lia|]. split; [auto|]. split; [auto|]. split; [auto|]. intros E. specialize (H1 E). lia.
  - apply le_IZR in L. exists (boxes - 1). split; [lia|]. split; [lia|]. split; [auto|]. split; [auto|]. intros E. specialize (H1 E). lia.
Qed.

Lemma box_index_rot : forall per boxes i, fin per -> (1 <= b2r per <= 16777216)%R -> 1 <= boxes <= 16777216 -> 0 <= i <= 16777216 ->
  exists z, f_to_int (box_slot per boxes i) = Ok z /\ 0 <= z <= boxes - 1 /\ z <= i /\ (b2r per = 1%R -> z = Z.min i (boxes - 1)).
Proof.
  intros per boxes i Fp Hp Hb Hi. destruct (box_slot_ok per boxes i Fp Hp Hb Hi) as (z & Hz & Hzi & Fz & Vz & H1).
  exists z. split; [|auto]. apply f_to_int_IZR; auto. unfold INT_MIN, INT_MAX. lia.
Qed.

Lemma box_index_snow : forall offset per boxes i, 0 <= offset <= 8388608 -> fin per -> (1 <= b2r per <= 16777216)%R -> 1 <= boxes <= 8388608 -> 0 <= i <= 16777216 ->
  exists z, f_to_int (fadd (f_of_Z offset) (box_slot per boxes i)) = Ok (offset + z) /\ 0 <= z <= boxes - 1 /\ z <= i /\ (b2r per = 1%R -> z = Z.min i (boxes - 1)).
Proof.
  intros offset per boxes i Ho Fp Hp Hb Hi. destruct (box_slot_ok per boxes i Fp Hp ltac:(lia) Hi) as (z & Hz & Hzi & Fz & Vz & H1).
  exists z. split; [|auto]. destruct (f_of_Z_exact offset) as (Vo & Fo); [lia|].
  destruct (fadd_spec (f_of_Z offset) (box_slot per boxes i) Fo Fz) as (Va & Fa).
  { rewrite Vo, Vz, <- plus_IZR, <- abs_IZR. apply Rle_trans with 16777216%R; [apply IZR_le; lia|rewrite pow127; lra]. }
  rewrite Vo, Vz, <- plus_IZR, rnd32_id in Va by (apply rep32_IZR; lia).
  apply f_to_int_IZR; auto. unfold INT_MIN, INT_MAX. lia.
Qed.
