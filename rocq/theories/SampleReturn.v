(** When reading a colour returns: the mask of the sampled area is always
    rendered, its centre pixel counts, and the sums are defined. *)
From Verif Require Import Base F32 F32Proofs Blend BlendProofs Queue QueueProofs Plumb PlumbProofs Mask MaskProofs OpaProofs RrProofs MaskFloatProofs FarProofs
  Dab DabProofs Sample SampleProofs SampleSpec SampleProofs2 SampleProofs3.
From Coq Require Import Reals Lra Psatz Permutation.
From Flocq Require Import Core.Core IEEE754.BinarySingleNaN.
From Verif Require Import P_Mask P_Sample.
Local Open Scope R_scope.

(** ** Opacity with hardness and softness one half: 1/2 - rr/2 *)
Definition mhalf : f32 := fopp fhalf.
Lemma opa_half : forall rr, calculate_opa rr fhalf (segments fhalf fhalf) = if flt f1 rr then f0 else fadd fhalf (fmul rr mhalf).
Proof.
  intros rr. unfold calculate_opa, segments.
  assert (fmul f1 (fsub f1 fhalf) = fhalf) as -> by (apply B2SF_inj; vm_compute; reflexivity).
  assert (fmul (fdiv fhalf (fsub f1 fhalf)) (fsub f1 fhalf) = fhalf) as -> by (apply B2SF_inj; vm_compute; reflexivity).
  assert (fmul (fopp (fsub (fdiv f1 fhalf) f1)) (fsub f1 fhalf) = mhalf) as -> by (apply B2SF_inj; vm_compute; reflexivity).
  assert (fmul (fdiv (fopp fhalf) (fsub f1 fhalf)) (fsub f1 fhalf) = mhalf) as -> by (apply B2SF_inj; vm_compute; reflexivity).
  destruct (fle rr fhalf); reflexivity.
Qed.

Definition half_opa (q : R) : R := rnd32 (/ 2 + rnd32 (q * - / 2)).
Lemma half_opa_mono : forall p q, p <= q -> half_opa q <= half_opa p.
Proof. intros p q H. apply rnd32_le. apply Rplus_le_compat_l. apply rnd32_le. lra. Qed.
Lemma half_opa_range : forall q, 0 <= q <= 1 -> 0 <= half_opa q <= / 2.
Proof.
  intros q H. assert (rep32 (/ 2)) as R2 by (change (/ 2) with (bpow radix2 (-1)); apply rep32_bpow; lia).
  assert (rep32 (- / 2)) as R2' by (apply rep32_opp; auto).
  assert (- / 2 <= rnd32 (q * - / 2) <= 0).
  { split; [apply rnd32_ge_r; auto; lra|apply rnd32_le_r; [apply rep32_0|lra]]. }
  unfold half_opa. split; [apply rnd32_ge_r; [apply rep32_0|lra]|apply rnd32_le_r; auto; lra].
Qed.

Lemma half_value : forall rr : f32, fin rr -> 0 <= b2r rr ->
  opa_u16 (calculate_opa rr fhalf (segments fhalf fhalf)) =
  Ok (if Rlt_bool 1 (b2r rr) then 0%Z else Ztrunc (rnd32 (half_opa (b2r rr) * 32768))).
Proof.
  intros rr F P. rewrite opa_half. destruct f1_val as (V1 & F1). rewrite flt_spec, V1 by auto.
  destruct (Rlt_bool_spec 1 (b2r rr)) as [L|L]; [reflexivity|].
  destruct fhalf_val as (VH & FH).
  destruct (fopp_spec fhalf) as (VM & FM); auto. fold mhalf in VM, FM. rewrite VH in VM. specialize (FM FH).
  pose proof bpow127_big.
  destruct (fmul_spec rr mhalf F FM) as (E1 & F1'). { rewrite VM. rewrite Rabs_mult, Rabs_pos_eq by lra. rewrite Rabs_left by lra. lra. }
  rewrite VM in E1.
  pose proof (half_opa_range (b2r rr) (conj P L)) as HR.
  destruct (fadd_spec fhalf (fmul rr mhalf) FH F1') as (E2 & F2).
  { rewrite VH, E1. assert (- / 2 <= rnd32 (b2r rr * - / 2) <= 0).
    { split; [apply rnd32_ge_r; [apply rep32_opp; change (/ 2) with (bpow radix2 (-1)); apply rep32_bpow; lia|lra]|apply rnd32_le_r; [apply rep32_0|lra]]. }
    rewrite Rabs_pos_eq by lra. lra. }
  rewrite VH, E1 in E2. fold (half_opa (b2r rr)) in E2.
  destruct (opa_u16_val _ F2) as (z & Ez & Vz); [rewrite E2; lra|]. rewrite Ez, Vz, E2. reflexivity.
Qed.

(** closer pixels count at least as much *)
Lemma half_closer : forall p q : f32, fin p -> fin q -> 0 <= b2r p <= b2r q ->
  opa_u16 (calculate_opa q fhalf (segments fhalf fhalf)) <> Ok 0%Z -> opa_u16 (calculate_opa p fhalf (segments fhalf fhalf)) <> Ok 0%Z.
Proof.
  intros p q Fp Fq H. rewrite !half_value by (auto; lra). intros N E.
  destruct (Rlt_bool_spec 1 (b2r q)) as [L|L]; [apply N; reflexivity|].
  revert E. rewrite Rlt_bool_false by lra. intros E. apply N. injection E as E. f_equal.
  pose proof (half_opa_range (b2r q) ltac:(lra)) as RQ. pose proof (half_opa_mono (b2r p) (b2r q) ltac:(lra)) as M.
  assert (rnd32 (half_opa (b2r q) * 32768) <= rnd32 (half_opa (b2r p) * 32768)) as M' by (apply rnd32_le; lra).
  assert (0 <= rnd32 (half_opa (b2r q) * 32768)) as P' by (apply rnd32_ge_r; [apply rep32_0|lra]).
  rewrite Ztrunc_floor in E |- * by lra.
  assert (Zfloor (rnd32 (half_opa (b2r q) * 32768)) <= Zfloor (rnd32 (half_opa (b2r p) * 32768)))%Z by (apply Zfloor_le; auto).
  assert (0 <= Zfloor (rnd32 (half_opa (b2r q) * 32768)))%Z by (apply Zfloor_lub; simpl; auto). lia.
Qed.

(** pixels within rr <= 3/4 count *)
Lemma half_counts : forall rr : f32, fin rr -> 0 <= b2r rr <= 3 / 4 ->
  exists v, opa_u16 (calculate_opa rr fhalf (segments fhalf fhalf)) = Ok v /\ (1 <= v)%Z.
Proof.
  intros rr F H. rewrite half_value by (auto; lra). rewrite Rlt_bool_false by lra. eexists. split; [reflexivity|].
  assert (/ 8 <= half_opa (b2r rr)) as L.
  { assert (- (3 / 8) <= rnd32 (b2r rr * - / 2)).
    { apply rnd32_ge_r; [|lra]. replace (- (3 / 8)) with (IZR (-3) * bpow radix2 (-3)) by (simpl; lra). apply rep32_scaled; lia. }
    unfold half_opa. apply rnd32_ge_r; [|lra]. replace (/ 8) with (bpow radix2 (-3)) by (simpl; lra). apply rep32_bpow. lia. }
  assert (1 <= rnd32 (half_opa (b2r rr) * 32768)) as M by (apply rnd32_ge_r; [apply (rep32_IZR 1); lia|lra]).
  rewrite Ztrunc_floor by lra. apply Zfloor_lub. exact M.
Qed.

(** ** Distances of a round, unturned dab *)
Lemma times1 : forall v k, bd v k -> (0 <= k <= 100)%Z -> fin (fmul v f1) /\ b2r (fmul v f1) = b2r v.
Proof.
  intros v k (F & B) K. destruct f1_val as (V1 & F1). destruct (fmul_spec v f1 F F1) as (E & F').
  - rewrite V1, Rmult_1_r. eapply Rle_trans; [exact B|]. apply bpow_le. lia.
  - split; auto. rewrite E, V1, Rmult_1_r. apply rnd32_id. apply rep32_b2r.
Qed.
Lemma times0 : forall v k, bd v k -> (0 <= k <= 100)%Z -> fin (fmul v f0) /\ b2r (fmul v f0) = 0.
Proof.
  intros v k (F & B) K. destruct f0_val as (V0 & F0). destruct (fmul_spec v f0 F F0) as (E & F').
  - rewrite V0, Rmult_0_r, Rabs_R0. apply bpow_ge_0.
  - split; auto. rewrite E, V0, Rmult_0_r. apply rnd32_0.
Qed.
Lemma flat_x : forall u v k, bd u k -> bd v k -> (0 <= k <= 100)%Z ->
  fin (fadd (fmul u f0) (fmul v f1)) /\ b2r (fadd (fmul u f0) (fmul v f1)) = b2r v.
Proof.
  intros u v k Bu Bv K. destruct (times0 u k Bu K) as (F1 & E1). destruct (times1 v k Bv K) as (F2 & E2).
  destruct (fadd_spec _ _ F1 F2) as (E & F).
  - rewrite E1, E2, Rplus_0_l. eapply Rle_trans; [apply Bv|]. apply bpow_le. lia.
  - split; auto. rewrite E, E1, E2, Rplus_0_l. apply rnd32_id, rep32_b2r.
Qed.
Lemma flat_y : forall u v k, bd u k -> bd v k -> (0 <= k <= 100)%Z ->
  fin (fmul (fsub (fmul u f1) (fmul v f0)) f1) /\ b2r (fmul (fsub (fmul u f1) (fmul v f0)) f1) = b2r u.
Proof.
  intros u v k Bu Bv K. destruct (times0 v k Bv K) as (F1 & E1). destruct (times1 u k Bu K) as (F2 & E2).
  destruct (fsub_spec _ _ F2 F1) as (E & F).
  - rewrite E1, E2, Rminus_0_r. eapply Rle_trans; [apply Bu|]. apply bpow_le. lia.
  - assert (b2r (fsub (fmul u f1) (fmul v f0)) = b2r u) as E' by (rewrite E, E1, E2, Rminus_0_r; apply rnd32_id, rep32_b2r).
    destruct (times1 (fsub (fmul u f1) (fmul v f0)) k) as (F' & E''); auto.
    + split; auto. rewrite E'. apply Bu.
    + split; auto. rewrite E''. exact E'.
Qed.

Definition dist2 (u v : R) : R := rnd32 (rnd32 (v * v) + rnd32 (u * u)).
Lemma flat_sample : forall x y k, bd x k -> bd y k -> (0 <= k <= 40)%Z ->
  fin (calculate_r_sample x y f1 f0 f1) /\ b2r (calculate_r_sample x y f1 f0 f1) = dist2 (b2r x) (b2r y).
Proof.
  intros x y k Bx By K. unfold calculate_r_sample.
  destruct (flat_y y x k By Bx) as (Fy & Ey); [lia|]. destruct (flat_x y x k By Bx) as (Fx & Ex); [lia|].
  set (yyr := fmul (fsub (fmul y f1) (fmul x f0)) f1) in *. set (xxr := fadd (fmul y f0) (fmul x f1)) in *.
  assert (bd yyr k) as Byy by (split; auto; rewrite Ey; apply By). assert (bd xxr k) as Bxx by (split; auto; rewrite Ex; apply Bx).
  pose proof (bd_mul yyr yyr k k Byy Byy ltac:(lia)) as (F1 & B1). pose proof (bd_mul xxr xxr k k Bxx Bxx ltac:(lia)) as (F2 & B2).
  destruct (bd_add _ _ _ (conj F1 B1) (conj F2 B2) ltac:(lia)) as (F3 & B3).
  split; auto.
  destruct (fadd_spec _ _ F1 F2) as (E & _).
  { eapply Rle_trans; [apply Rabs_triang|]. apply Rle_trans with (bpow radix2 (k + k + 1)); [|apply bpow_le; lia]. rewrite bpow_S. lra. }
  rewrite E. unfold dist2. f_equal.
  assert (forall z, fin z -> Rabs (b2r z) <= bpow radix2 k -> b2r (fmul z z) = rnd32 (b2r z * b2r z)) as SQ.
  { intros z Fz Bz. apply fmul_spec; auto. rewrite Rabs_mult. apply Rle_trans with (bpow radix2 (k + k)); [|apply bpow_le; lia].
    rewrite bpow_plus. apply Rmult_le_compat; auto; apply Rabs_pos. }
  rewrite !SQ by (auto; first [apply Byy|apply Bxx]). rewrite Ey, Ex. reflexivity.
Qed.
Lemma dist2_mono : forall u u' v v', Rabs u <= Rabs u' -> Rabs v <= Rabs v' -> dist2 u v <= dist2 u' v'.
Proof.
  intros u u' v v' Hu Hv. apply rnd32_le. apply abs_le_sq in Hu, Hv.
  apply Rplus_le_compat; apply rnd32_le; auto.
Qed.
Lemma dist2_nonneg : forall u v, 0 <= dist2 u v.
Proof.
  intros u v. apply nonneg_rnd. apply Rplus_le_le_0_compat; apply nonneg_rnd; nra.
Qed.
