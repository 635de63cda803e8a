(** Outside its box a dab has no effect: the opacity computed for a pixel more
    than radius + 1 away from the centre along one axis is exactly 0. *)
From Verif Require Import Base F32 F32Proofs Blend Mask OpaProofs RrProofs MaskFloatProofs.
From Coq Require Import Reals Lra Psatz.
From Flocq Require Import Core.Core IEEE754.BinarySingleNaN.
Open Scope R_scope.

Definition e0 : R := bpow radix2 (-150).
Lemma e0_small : 0 <= e0 <= / 1000000000000000000000000.
Proof. pose proof bpow150_small as H. unfold e0. lra. Qed.

Lemma rnd_rel : forall z, Rabs (rnd32 z - z) <= Rabs z * U + e0.
Proof. intros z. apply rnd32_gen. Qed.

(** rounding never loses more than one part in 2^24 (and an underflow) *)
Lemma rnd_lower : forall z, 0 <= z -> z * (1 - U) - e0 <= rnd32 z.
Proof. intros z H. pose proof (rnd_rel z) as X. rewrite (Rabs_pos_eq z H) in X. apply Rabs_le_inv in X. lra. Qed.
Lemma rnd_upper : forall z, 0 <= z -> rnd32 z <= z * (1 + U) + e0.
Proof. intros z H. pose proof (rnd_rel z) as X. rewrite (Rabs_pos_eq z H) in X. apply Rabs_le_inv in X. lra. Qed.

Lemma bd_small : forall x k, bd x k -> (k <= 127)%Z -> Rabs (b2r x) <= bpow radix2 127.
Proof. intros x k (_ & H) L. eapply Rle_trans; [exact H|apply bpow_le; exact L]. Qed.

(** a product by a number at most one in magnitude *)
Lemma mul_unit : forall v c k, bd v k -> bd c 0 -> (0 <= k <= 126)%Z ->
  Rabs (b2r (fmul v c) - b2r v * b2r c) <= Rabs (b2r v) * U + e0.
Proof.
  intros v c k (Fv & Hv) (Fc & Hc) Hk. change (bpow radix2 0) with 1 in Hc.
  assert (Rabs (b2r v * b2r c) <= Rabs (b2r v)) as L.
  { rewrite Rabs_mult. pose proof (Rabs_pos (b2r v)). nra. }
  destruct (fmul_spec v c Fv Fc) as (E & _).
  { eapply Rle_trans; [exact L|]. eapply Rle_trans; [exact Hv|apply bpow_le; lia]. }
  rewrite E. eapply Rle_trans; [apply rnd_rel|]. unfold U in *. pose proof (Rabs_pos (b2r v)). nra.
Qed.

Lemma abs2 : forall a b, Rabs (a + b) <= Rabs a + Rabs b. Proof. exact Rabs_triang. Qed.

(** sum or difference of two such products *)
Lemma pair_err : forall p q P Q M, 0 <= M -> / 4 <= M ->
  Rabs (p - P) + Rabs (q - Q) <= M * U + 2 * e0 -> Rabs P + Rabs Q <= M ->
  Rabs (rnd32 (p + q) - (P + Q)) <= M * (22 / 10 * U).
Proof.
  intros p q P Q M M0 M4 H L. pose proof e0_small as E.
  pose proof (rnd_rel (p + q)) as X.
  assert (Rabs (p + q) <= M + (M * U + 2 * e0)) as S.
  { replace (p + q) with ((P + Q) + ((p - P) + (q - Q))) by ring.
    eapply Rle_trans; [apply abs2|]. pose proof (abs2 P Q). pose proof (abs2 (p - P) (q - Q)). lra. }
  replace (rnd32 (p + q) - (P + Q)) with ((rnd32 (p + q) - (p + q)) + ((p - P) + (q - Q))) by ring.
  eapply Rle_trans; [apply abs2|]. pose proof (abs2 (p - P) (q - Q)).
  assert (Rabs (p + q) * U <= (M + (M * U + 2 * e0)) * U) by (apply Rmult_le_compat_r; [unfold U; lra|exact S]).
  unfold U in *. lra.
Qed.

Lemma sq_lower : forall a A d M, Rabs (a - A) <= d -> Rabs A <= M -> 0 <= M -> 0 <= d -> A * A - 2 * M * d <= a * a.
Proof.
  intros a A d M H L M0 D0. apply Rabs_le_inv in H, L.
  assert (Rabs (A * (a - A)) <= M * d) as X.
  { rewrite Rabs_mult. apply Rmult_le_compat; auto using Rabs_pos; apply Rabs_le; lra. }
  apply Rabs_le_inv in X. pose proof (Rle_0_sqr (a - A)) as S. unfold Rsqr in S.
  replace (a * a) with (A * A + 2 * (A * (a - A)) + (a - A) * (a - A)) by ring. lra.
Qed.

Lemma abs_le_sq : forall a b, Rabs a <= Rabs b -> a * a <= b * b.
Proof.
  intros a b H. rewrite <- (Rabs_pos_eq (a * a)), <- (Rabs_pos_eq (b * b)) by apply Rle_0_sqr.
  rewrite !Rabs_mult. apply Rmult_le_compat; auto using Rabs_pos.
Qed.

Lemma abs_rnd_ge : forall z a, rep32 a -> Rabs a <= Rabs z -> Rabs a <= Rabs (rnd32 z).
Proof.
  intros z a Ha H. assert (rep32 (Rabs a)) as Ra.
  { unfold Rabs. destruct (Rcase_abs a); auto using rep32_opp. }
  destruct (Rle_lt_dec 0 z) as [P|P].
  - rewrite (Rabs_pos_eq z P) in H. eapply Rle_trans; [|apply RRle_abs]. apply rnd32_ge_r; auto.
  - rewrite (Rabs_left z P) in H. eapply Rle_trans; [|rewrite <- Rabs_Ropp; apply RRle_abs].
    rewrite <- rnd32_opp. apply rnd32_ge_r; auto.
Qed.

(** the squared, rotated and squeezed distance is not much smaller than the
    true squared distance *)
Lemma sample_lower : forall x y a sn cs k, bd x k -> bd y k -> (0 <= k <= 30)%Z -> bd a 20 -> 1 <= b2r a ->
  trig_ok (cs, sn) -> / 4 <= Rabs (b2r x) + Rabs (b2r y) ->
  (b2r x * b2r x + b2r y * b2r y) * (1 - / 65536 - / 524288) <= b2r (calculate_r_sample x y a sn cs).
Proof.
  intros x y a sn cs k Bx By Hk Ba La (Bc & Bs & T) HM. cbn [fst snd] in *. apply Rabs_le_inv in T.
  pose proof e0_small as E0. unfold calculate_r_sample.
  set (X := b2r x) in *. set (Y := b2r y) in *. set (C := b2r cs) in *. set (S := b2r sn) in *.
  set (M := Rabs X + Rabs Y) in *.
  assert (M0 : 0 <= M) by lra.
  assert (B1 : bd (fmul y cs) k) by (replace k with (k + 0)%Z by lia; apply bd_mul; auto; lia).
  assert (B2 : bd (fmul x sn) k) by (replace k with (k + 0)%Z by lia; apply bd_mul; auto; lia).
  assert (B3 : bd (fmul y sn) k) by (replace k with (k + 0)%Z by lia; apply bd_mul; auto; lia).
  assert (B4 : bd (fmul x cs) k) by (replace k with (k + 0)%Z by lia; apply bd_mul; auto; lia).
  pose proof (mul_unit y cs k By Bc ltac:(lia)) as P1. pose proof (mul_unit x sn k Bx Bs ltac:(lia)) as P2.
  pose proof (mul_unit y sn k By Bs ltac:(lia)) as P3. pose proof (mul_unit x cs k Bx Bc ltac:(lia)) as P4.
  fold X Y C S in P1, P2, P3, P4.
  assert (LC : Rabs C <= 1) by exact (proj2 Bc). assert (LS : Rabs S <= 1) by exact (proj2 Bs).
  assert (unit : forall v w, Rabs w <= 1 -> Rabs (v * w) <= Rabs v).
  { intros v w L. rewrite Rabs_mult. pose proof (Rabs_pos v). nra. }
  (* the two rotated coordinates *)
  assert (Bd1 : bd (fsub (fmul y cs) (fmul x sn)) (k + 1)) by (apply bd_sub; auto; lia).
  assert (Bd2 : bd (fadd (fmul y sn) (fmul x cs)) (k + 1)) by (apply bd_add; auto; lia).
  destruct (fsub_spec (fmul y cs) (fmul x sn) (proj1 B1) (proj1 B2)) as (Ea & _).
  { eapply Rle_trans; [apply abs2|]. rewrite Rabs_Ropp. destruct B1 as (_ & G1), B2 as (_ & G2).
    apply Rle_trans with (bpow radix2 (k + 1)); [rewrite bpow_S; lra|apply bpow_le; lia]. }
  destruct (fadd_spec (fmul y sn) (fmul x cs) (proj1 B3) (proj1 B4)) as (Eb & _).
  { eapply Rle_trans; [apply abs2|]. destruct B3 as (_ & G1), B4 as (_ & G2).
    apply Rle_trans with (bpow radix2 (k + 1)); [rewrite bpow_S; lra|apply bpow_le; lia]. }
  set (fa := fsub (fmul y cs) (fmul x sn)) in *. set (fb := fadd (fmul y sn) (fmul x cs)) in *.
  assert (DA : Rabs (b2r fa - (Y * C - X * S)) <= M * (22 / 10 * U)).
  { rewrite Ea. unfold Rminus at 2 3. apply pair_err; auto.
    - replace (- b2r (fmul x sn) - - (X * S)) with (- (b2r (fmul x sn) - X * S)) by ring. rewrite Rabs_Ropp.
      unfold M. lra.
    - rewrite Rabs_Ropp. pose proof (unit Y C LC). pose proof (unit X S LS). unfold M. lra. }
  assert (DB : Rabs (b2r fb - (Y * S + X * C)) <= M * (22 / 10 * U)).
  { rewrite Eb. apply pair_err; auto.
    - unfold M. lra.
    - pose proof (unit Y S LS). pose proof (unit X C LC). unfold M. lra. }
  assert (AM : Rabs (Y * C - X * S) <= M).
  { eapply Rle_trans; [apply abs2|]. rewrite Rabs_Ropp. pose proof (unit Y C LC). pose proof (unit X S LS). unfold M. lra. }
  assert (BM : Rabs (Y * S + X * C) <= M).
  { eapply Rle_trans; [apply abs2|]. pose proof (unit Y S LS). pose proof (unit X C LC). unfold M. lra. }
  assert (D0 : 0 <= M * (22 / 10 * U)) by (apply Rmult_le_pos; [lra|unfold U; lra]).
  pose proof (sq_lower _ _ _ M DA AM M0 D0) as QA. pose proof (sq_lower _ _ _ M DB BM M0 D0) as QB.
  set (N2 := X * X + Y * Y).
  assert (MN : M * M <= 2 * N2).
  { unfold M, N2. pose proof (Rle_0_sqr (Rabs X - Rabs Y)) as Q. unfold Rsqr in Q.
    replace (X * X) with (Rabs X * Rabs X) by (rewrite <- Rabs_mult; apply Rabs_pos_eq, Rle_0_sqr).
    replace (Y * Y) with (Rabs Y * Rabs Y) by (rewrite <- Rabs_mult; apply Rabs_pos_eq, Rle_0_sqr). lra. }
  assert (MM : / 16 <= M * M) by (apply Rle_trans with (/ 4 * / 4); [lra|apply Rmult_le_compat; lra]).
  assert (N32 : / 32 <= N2) by lra.
  assert (ROT : (Y * C - X * S) * (Y * C - X * S) + (Y * S + X * C) * (Y * S + X * C) = N2 * (C * C + S * S)) by (unfold N2; ring).
  assert (Q : N2 * (1 - / 65536 - 176 / 10 * U) <= b2r fa * b2r fa + b2r fb * b2r fb).
  { assert (N2 * (1 - / 65536) <= N2 * (C * C + S * S)) by (apply Rmult_le_compat_l; lra).
    assert (M * M * (88 / 10 * U) <= 2 * N2 * (88 / 10 * U)) by (apply Rmult_le_compat_r; [unfold U; lra|exact MN]).
    unfold U in *. lra. }
  (* aspect ratio *)
  assert (Bd3 : bd (fmul fa a) (k + 1 + 20)) by (apply bd_mul; auto; lia).
  assert (Z1 : b2r fa * b2r fa <= b2r (fmul fa a) * b2r (fmul fa a)).
  { apply abs_le_sq. destruct (fmul_spec fa a (proj1 Bd1) (proj1 Ba)) as (Em & _).
    { rewrite Rabs_mult. apply Rle_trans with (bpow radix2 (k + 1 + 20)); [|apply bpow_le; lia].
      rewrite (bpow_plus radix2 (k + 1) 20). apply Rmult_le_compat; auto using Rabs_pos; [apply Bd1|apply Ba]. }
    rewrite Em. apply abs_rnd_ge; [apply rep32_b2r|]. rewrite Rabs_mult, (Rabs_pos_eq (b2r a)) by lra.
    pose proof (Rabs_pos (b2r fa)). nra. }
  set (ya := fmul fa a) in *.
  assert (sqr : forall v j, bd v j -> (0 <= j <= 51)%Z ->
    bd (fmul v v) (j + j) /\ b2r v * b2r v * (1 - U) - e0 <= b2r (fmul v v)).
  { intros v j (Fv & Hv) Hj. split; [apply bd_mul; try split; auto; lia|].
    destruct (fmul_spec v v Fv Fv) as (Em & _).
    { rewrite Rabs_mult. apply Rle_trans with (bpow radix2 (j + j)); [|apply bpow_le; lia].
      rewrite bpow_plus. apply Rmult_le_compat; auto using Rabs_pos. }
    rewrite Em. apply rnd_lower. apply Rle_0_sqr. }
  destruct (sqr ya _ Bd3 ltac:(lia)) as (Bya & Lya). destruct (sqr fb _ Bd2 ltac:(lia)) as (Bfb & Lfb).
  assert (Bya' : bd (fmul ya ya) 102) by (eapply bd_weak; [exact Bya|lia]).
  assert (Bfb' : bd (fmul fb fb) 102) by (eapply bd_weak; [exact Bfb|lia]).
  destruct (fadd_spec (fmul ya ya) (fmul fb fb) (proj1 Bya) (proj1 Bfb)) as (Es & _).
  { eapply Rle_trans; [apply abs2|]. destruct Bya' as (_ & G1), Bfb' as (_ & G2).
    apply Rle_trans with (bpow radix2 (102 + 1)); [rewrite bpow_S; lra|apply bpow_le; lia]. }
  rewrite Es.
  assert (W : N2 * (1 - / 65536 - 187 / 10 * U) <= b2r (fmul ya ya) + b2r (fmul fb fb)).
  { assert ((b2r fa * b2r fa + b2r fb * b2r fb) * (1 - U) - 2 * e0 <= b2r (fmul ya ya) + b2r (fmul fb fb)).
    { assert (b2r fa * b2r fa * (1 - U) <= b2r ya * b2r ya * (1 - U)) by (apply Rmult_le_compat_r; [unfold U; lra|exact Z1]). lra. }
    assert (N2 * (1 - / 65536 - 176 / 10 * U) * (1 - U) <= (b2r fa * b2r fa + b2r fb * b2r fb) * (1 - U))
      by (apply Rmult_le_compat_r; [unfold U; lra|exact Q]).
    unfold U in *. lra. }
  pose proof (rnd_lower (b2r (fmul ya ya) + b2r (fmul fb fb))) as R.
  assert (P0 : 0 <= N2 * (1 - / 65536 - 187 / 10 * U)) by (apply Rmult_le_pos; unfold U; lra).
  specialize (R ltac:(lra)).
  assert (N2 * (1 - / 65536 - 187 / 10 * U) * (1 - U) <= (b2r (fmul ya ya) + b2r (fmul fb fb)) * (1 - U))
      by (apply Rmult_le_compat_r; [unfold U; lra|exact W]).
  unfold U in *. lra.
Qed.

(** dividing by the squared radius *)
Lemma over_one : forall v r k, bd v k -> (0 <= k <= 110)%Z -> fin r -> / 16 <= b2r r <= 1048576 ->
  b2r r * b2r r * (1 + / 131072) <= b2r v -> 
  bd (fmul v (fdiv f1 (fmul r r))) (k + 9) /\ 1 < b2r (fmul v (fdiv f1 (fmul r r))).
Proof.
  intros v r k Bv Hk Fr Hr L. pose proof e0_small as E0. destruct f1_val as (V1 & F1).
  destruct (oor_ok r Fr Hr) as (Bo & No).
  split; [apply bd_mul; auto; lia|].
  set (s := b2r r * b2r r) in *.
  assert (S : / 256 <= s <= bpow radix2 40).
  { split.
    - apply Rle_trans with (/ 16 * / 16); [lra|]. apply Rmult_le_compat; lra.
    - apply Rle_trans with (1048576 * 1048576); [apply Rmult_le_compat; lra|simpl; lra]. }
  destruct (fmul_spec r r Fr Fr) as (E & G).
  { fold s. rewrite Rabs_pos_eq by lra. eapply Rle_trans; [apply S|apply bpow_le; lia]. }
  fold s in E.
  assert (RS : s * (1 - 2 * U) <= rnd32 s <= s * (1 + 2 * U)).
  { pose proof (rnd_upper s ltac:(lra)). pose proof (rnd_lower s ltac:(lra)). unfold U in *. lra. }
  assert (P : 0 < rnd32 s) by (unfold U in *; lra).
  assert (Q1 : 0 <= 1 / rnd32 s <= 256 * 256).
  { split; [apply div_pos; lra|]. apply div_le; unfold U in *; lra. }
  assert (bpow radix2 16 <= bpow radix2 127) as B16 by (apply bpow_le; lia). change (bpow radix2 16) with 65536 in B16.
  destruct (fdiv_spec f1 (fmul r r) F1) as (Ed & Fd).
  { rewrite E. lra. }
  { rewrite V1, E, Rabs_pos_eq by tauto. lra. }
  rewrite V1, E in Ed.
  assert (O1 : / s * (1 - 4 * U) <= rnd32 (1 / rnd32 s)).
  { pose proof (rnd_lower (1 / rnd32 s) ltac:(tauto)) as X.
    assert (/ s * (1 - 2 * U) <= 1 / rnd32 s) as Y.
    { unfold Rdiv. rewrite Rmult_1_l. apply Rle_trans with (/ (s * (1 + 2 * U))).
      - rewrite Rinv_mult. apply Rmult_le_compat_l; [left; apply Rinv_0_lt_compat; lra|].
        apply Rmult_le_reg_r with (1 + 2 * U); [unfold U; lra|]. rewrite Rinv_l by (unfold U; lra). unfold U. lra.
      - apply Rinv_le_contravar; lra. }
    assert (/ 1099511627776 <= / s).
    { apply Rinv_le_contravar; [lra|]. change (bpow radix2 40) with 1099511627776 in S. lra. }
    assert (/ s * (1 - 2 * U) * (1 - U) <= 1 / rnd32 s * (1 - U)) by (apply Rmult_le_compat_r; [unfold U; lra|exact Y]).
    unfold U in *. lra. }
  assert (O2 : 1 + / 8388608 <= b2r v * rnd32 (1 / rnd32 s)).
  { apply Rle_trans with (s * (1 + / 131072) * (/ s * (1 - 4 * U))).
    - replace (s * (1 + / 131072) * (/ s * (1 - 4 * U))) with ((1 + / 131072) * (1 - 4 * U) * (s * / s)) by ring.
      rewrite Rinv_r by lra. unfold U. lra.
    - assert (0 < / s) by (apply Rinv_0_lt_compat; lra).
      apply Rmult_le_compat; auto; try (apply Rmult_le_pos; unfold U; lra). }
  destruct (fmul_spec v _ (proj1 Bv) (proj1 Bo)) as (Em & _).
  { rewrite Rabs_mult. apply Rle_trans with (bpow radix2 (k + 9)); [|apply bpow_le; lia].
    rewrite bpow_plus. apply Rmult_le_compat; auto using Rabs_pos; [apply Bv|apply Bo]. }
  rewrite Em, Ed. apply Rlt_le_trans with (1 + / 8388608); [lra|].
  apply rnd32_ge_r; [|exact O2].
  replace (1 + / 8388608) with (IZR 8388609 * bpow radix2 (-23)) by (simpl; lra). apply rep32_scaled; lia.
Qed.

Lemma clampf_between : forall v lo hi : f32, fin v -> fin lo -> fin hi -> b2r lo <= b2r hi ->
  fin (clampf v lo hi) /\ b2r lo <= b2r (clampf v lo hi) <= b2r hi.
Proof.
  intros v lo hi Fv Fl Fh L. unfold clampf. rewrite !flt_spec by auto.
  destruct (Rlt_bool_spec (b2r hi) (b2r v)); [split; auto; lra|].
  destruct (Rlt_bool_spec (b2r v) (b2r lo)); split; auto; lra.
Qed.

(** at least the radius plus one pixel away (with some slack) *)
Definition far (p : Z) (v r : f32) : Prop := b2r r + 31 / 32 <= Rabs (IZR p + / 2 - b2r v).

(** the coordinates of a pixel centre relative to the dab *)
Lemma center_val : forall p v, (Z.abs p <= 2097152)%Z -> bd v 20 ->
  bd (fsub (fadd (f_of_Z p) fhalf) v) 23 /\
  b2r (fsub (fadd (f_of_Z p) fhalf) v) = rnd32 (IZR p + / 2 - b2r v).
Proof.
  intros p v Hp Bv. destruct (f_of_Z_exact p) as (Ep & Fp); [lia|]. destruct fhalf_val as (VH & FH).
  assert (Hp' : -2097152 <= IZR p <= 2097152) by (split; [apply (IZR_le (-2097152))|apply (IZR_le p 2097152)]; lia).
  destruct (fadd_spec (f_of_Z p) fhalf Fp FH) as (E & F).
  { rewrite Ep, VH. apply Rle_trans with (bpow radix2 22); [change (bpow radix2 22) with 4194304; apply Rabs_le; lra|apply bpow_le; lia]. }
  rewrite Ep, VH in E.
  assert (X : rnd32 (IZR p + / 2) = IZR p + / 2).
  { apply rnd32_id. replace (IZR p + / 2) with (IZR (2 * p + 1) * bpow radix2 (-1)).
    - apply rep32_scaled; lia.
    - rewrite plus_IZR, mult_IZR. simpl. lra. }
  rewrite X in E. destruct Bv as (Fv & Hv). change (bpow radix2 20) with 1048576 in Hv. apply Rabs_le_inv in Hv.
  assert (B : bd (fadd (f_of_Z p) fhalf) 22).
  { split; auto. rewrite E. change (bpow radix2 22) with 4194304. apply Rabs_le. lra. }
  split.
  - change 23%Z with (22 + 1)%Z. apply bd_sub; auto; [|lia]. apply bd_weak with 20%Z; [|lia].
    split; auto. change (bpow radix2 20) with 1048576. apply Rabs_le. lra.
  - destruct (fsub_spec (fadd (f_of_Z p) fhalf) v F Fv) as (E2 & _); [|rewrite E2, E; reflexivity].
    rewrite E. apply Rle_trans with (bpow radix2 22); [change (bpow radix2 22) with 4194304; apply Rabs_le; lra|apply bpow_le; lia].
Qed.

Lemma abs_rnd_lower : forall z, Rabs z * (1 - U) - e0 <= Rabs (rnd32 z).
Proof.
  intros z. pose proof (rnd_rel z) as X. pose proof (Rabs_triang_inv z (z - rnd32 z)) as T.
  replace (z - (z - rnd32 z)) with (rnd32 z) in T by ring. rewrite Rabs_minus_sym in X. lra.
Qed.

Lemma sq_of_abs : forall v m, 0 <= m -> m <= Rabs v -> m * m <= v * v.
Proof.
  intros v m H L. rewrite <- (Rabs_pos_eq (v * v)) by apply Rle_0_sqr. rewrite Rabs_mult. apply Rmult_le_compat; lra.
Qed.

Lemma plain_far : forall xp yp x y r a sn cs, (Z.abs xp <= 2097152)%Z -> (Z.abs yp <= 2097152)%Z ->
  bd x 20 -> bd y 20 -> fin r -> 3 <= b2r r <= 65536 -> bd a 20 -> 1 <= b2r a -> trig_ok (cs, sn) ->
  far xp x r \/ far yp y r ->
  let rr := calculate_rr xp yp x y a sn cs (fdiv f1 (fmul r r)) in
  fin rr /\ 1 < b2r rr.
Proof.
  intros xp yp x y r a sn cs Hx Hy Bx By Fr Hr Ba La T H. cbv zeta. pose proof e0_small as E0.
  destruct (center_val xp x Hx Bx) as (BX & EX). destruct (center_val yp y Hy By) as (BY & EY).
  set (fx := fsub (fadd (f_of_Z xp) fhalf) x) in *. set (fy := fsub (fadd (f_of_Z yp) fhalf) y) in *.
  change (calculate_rr xp yp x y a sn cs (fdiv f1 (fmul r r)))
    with (fmul (calculate_r_sample fx fy a sn cs) (fdiv f1 (fmul r r))).
  assert (D : (b2r r + 31 / 32) * (1 - 2 * U) <= Rabs (b2r fx) \/ (b2r r + 31 / 32) * (1 - 2 * U) <= Rabs (b2r fy)).
  { assert (forall z, b2r r + 31 / 32 <= Rabs z -> (b2r r + 31 / 32) * (1 - 2 * U) <= Rabs (rnd32 z)) as K.
    { intros z L. pose proof (abs_rnd_lower z) as X.
      assert ((b2r r + 31 / 32) * (1 - U) <= Rabs z * (1 - U)) by (apply Rmult_le_compat_r; [unfold U; lra|exact L]).
      unfold U in *. lra. }
    destruct H as [H|H]; unfold far in H; [left; rewrite EX|right; rewrite EY]; apply K; exact H. }
  pose proof (Rabs_pos (b2r fx)) as PX. pose proof (Rabs_pos (b2r fy)) as PY.
  pose proof (r_sample_ok fx fy a sn cs 23 BX BY Ba) as [BS _]; [apply T|apply T|lia|].
  pose proof (sample_lower fx fy a sn cs 23 BX BY ltac:(lia) Ba La T) as LS.
  specialize (LS ltac:(unfold U in *; lra)).
  destruct (over_one (calculate_r_sample fx fy a sn cs) r (2 * 23 + 43) BS ltac:(lia) Fr ltac:(lra)) as ((Fo & _) & Lo); [|auto].
  eapply Rle_trans; [|exact LS].
  set (m := (b2r r + 31 / 32) * (1 - 2 * U)) in *.
  assert (N2 : m * m <= b2r fx * b2r fx + b2r fy * b2r fy).
  { assert (m0 : 0 <= m) by (unfold m; apply Rmult_le_pos; unfold U; lra).
    pose proof (Rle_0_sqr (b2r fx)) as S1. pose proof (Rle_0_sqr (b2r fy)) as S2. unfold Rsqr in *.
    destruct D as [D|D]; pose proof (sq_of_abs _ _ m0 D); lra. }
  apply Rle_trans with (m * m * (1 - / 65536 - / 524288)).
  2:{ apply Rmult_le_compat_r; [lra|exact N2]. }
  unfold m. set (R := b2r r) in *.
  replace ((R + 31 / 32) * (1 - 2 * U) * ((R + 31 / 32) * (1 - 2 * U)) * (1 - / 65536 - / 524288))
    with ((R * R + 31 / 16 * R + 961 / 1024) * ((1 - 2 * U) * (1 - 2 * U) * (1 - / 65536 - / 524288))) by field.
  assert (Kc : 1 - / 65536 - / 262144 <= (1 - 2 * U) * (1 - 2 * U) * (1 - / 65536 - / 524288)) by (unfold U; lra).
  assert (R * R <= 65536 * R) by (apply Rmult_le_compat_r; lra).
  assert (0 <= R * R) by (apply Rle_0_sqr).
  apply Rle_trans with ((R * R + 31 / 16 * R + 961 / 1024) * (1 - / 65536 - / 262144)).
  - lra.
  - apply Rmult_le_compat_l; [lra|exact Kc].
Qed.

(** the antialiased version: the nearest point of the pixel is already outside *)
Lemma aa_far : forall xp yp x y r a sn cs aa, (Z.abs xp <= 2097152)%Z -> (Z.abs yp <= 2097152)%Z ->
  bd x 20 -> bd y 20 -> fin r -> / 16 <= b2r r < 3 -> bd a 20 -> 1 <= b2r a -> trig_ok (cs, sn) ->
  far xp x r \/ far yp y r ->
  let rr := calculate_rr_antialiased xp yp x y a sn cs (fdiv f1 (fmul r r)) aa in
  fin rr /\ 1 < b2r rr.
Proof.
  intros xp yp x y r a sn cs aa Hx Hy Bx By Fr Hr Ba La T H. cbv zeta. pose proof e0_small as E0.
  destruct f1_val as (V1 & F1). destruct fhalf_val as (VH & FH). destruct f0_val as (V0 & F0).
  unfold calculate_rr_antialiased.
  (* one axis: the edges of the pixel *)
  assert (Axis : forall p v, (Z.abs p <= 2097152)%Z -> bd v 20 ->
    let right := fsub v (f_of_Z p) in
    bd right 22 /\ bd (fsub right f1) 23 /\ bd (fsub right fhalf) 23 /\ b2r (fsub right f1) <= b2r right /\
    (far p v r -> b2r r + 44 / 100 <= b2r (fsub right f1) \/ b2r right <= - (b2r r + 44 / 100))).
  { intros p v Hp Bv. cbv zeta. destruct (f_of_Z_exact p) as (Ep & Fp); [lia|].
    assert (Hp' : -2097152 <= IZR p <= 2097152) by (split; [apply (IZR_le (-2097152))|apply (IZR_le p 2097152)]; lia).
    assert (bd (f_of_Z p) 21) as Bp by (split; auto; rewrite Ep; change (bpow radix2 21) with 2097152; apply Rabs_le; lra).
    assert (bd (fsub v (f_of_Z p)) (21 + 1)) as Br by (apply bd_sub; auto; [apply bd_weak with 20%Z; auto; lia|lia]).
    split; [exact Br|].
    assert (bd (fsub (fsub v (f_of_Z p)) f1) (22 + 1)) as Bl by (apply bd_sub; auto; [apply bd_weak with 0%Z; [apply bd_one|lia]|lia]).
    split; [exact Bl|]. split; [change 23%Z with (22 + 1)%Z; apply bd_sub; auto; [apply bd_weak with 0%Z; [apply bd_half|lia]|lia]|].
    destruct Bv as (Fv & Hv). change (bpow radix2 20) with 1048576 in Hv. apply Rabs_le_inv in Hv.
    destruct (fsub_spec v (f_of_Z p) Fv Fp) as (Er & _).
    { rewrite Ep. apply Rle_trans with (bpow radix2 22); [change (bpow radix2 22) with 4194304; apply Rabs_le; lra|apply bpow_le; lia]. }
    rewrite Ep in Er. set (right := fsub v (f_of_Z p)) in *.
    destruct Br as (Frr & Hrr). change (bpow radix2 (21 + 1)) with 4194304 in Hrr. apply Rabs_le_inv in Hrr.
    destruct (fsub_spec right f1 Frr F1) as (El & _).
    { rewrite V1. apply Rle_trans with (bpow radix2 23); [change (bpow radix2 23) with 8388608; apply Rabs_le; lra|apply bpow_le; lia]. }
    rewrite V1 in El. split.
    { rewrite El. apply rnd32_le_r; [apply rep32_b2r|lra]. }
    intros Hf. unfold far in Hf.
    destruct (Rle_lt_dec 0 (IZR p + / 2 - b2r v)) as [P|P].
    - rewrite Rabs_pos_eq in Hf by exact P. right. rewrite Er.
      replace (b2r v - IZR p) with (- (IZR p - b2r v)) by ring. rewrite rnd32_opp.
      pose proof (rnd_lower (IZR p - b2r v) ltac:(lra)) as X. unfold U in *. lra.
    - rewrite Rabs_left in Hf by exact P. left. rewrite El.
      pose proof (rnd_lower (b2r v - IZR p) ltac:(lra)) as X. rewrite <- Er in X.
      assert (b2r r + 145 / 100 <= b2r right) as L by (unfold U in *; lra).
      pose proof (rnd_lower (b2r right - 1) ltac:(lra)) as Y. unfold U in *. lra. }
  destruct (Axis xp x Hx Bx) as (R1 & R2 & R3 & R4 & R5). destruct (Axis yp y Hy By) as (S1 & S2 & S3 & S4 & S5).
  clear Axis. cbv zeta in *.
  set (pr := fsub x (f_of_Z xp)) in *. set (pb := fsub y (f_of_Z yp)) in *.
  set (pl := fsub pr f1) in *. set (pt := fsub pb f1) in *.
  set (cx := fsub pr fhalf) in *. set (cy := fsub pb fhalf) in *.
  assert (I : flt pl f0 && flt f0 pr && flt pt f0 && flt f0 pb = false).
  { assert (forall v : f32, fin v -> 0 <= b2r v -> flt v f0 = false) as K1.
    { intros v Fv Hv. rewrite flt_spec, V0 by auto. apply Rlt_bool_false. exact Hv. }
    assert (forall v : f32, fin v -> b2r v <= 0 -> flt f0 v = false) as K2.
    { intros v Fv Hv. rewrite flt_spec, V0 by auto. apply Rlt_bool_false. exact Hv. }
    destruct H as [H|H].
    - destruct (R5 H) as [X|X].
      + rewrite (K1 pl); [reflexivity|apply R2|lra].
      + rewrite (K2 pr); [|apply R1|lra]. rewrite andb_false_r. reflexivity.
    - destruct (S5 H) as [X|X].
      + rewrite (K1 pt); [|apply S2|lra]. rewrite andb_false_r. reflexivity.
      + rewrite (K2 pb); [|apply S1|lra]. rewrite andb_false_r. reflexivity. }
  cbv zeta. rewrite I.
  destruct (closest_ok cs sn cx cy 23 T R3 S3 ltac:(lia)) as (Cn & Cm).
  destruct (closest_point_to_line cs sn cx cy) as (qx, qy). cbn [fst snd] in *.
  destruct (clampf_between qx pl pr (proj1 Cn) (proj1 R2) (proj1 R1) R4) as (Fn & Ln).
  destruct (clampf_between qy pt pb (proj1 Cm) (proj1 S2) (proj1 S1) S4) as (Fm & Lm).
  assert (Bn : bd (clampf qx pl pr) 26).
  { apply bd_clamp; [exact Cn|apply bd_weak with 23%Z; auto; lia|apply bd_weak with 22%Z; auto; lia]. }
  assert (Bm : bd (clampf qy pt pb) 26).
  { apply bd_clamp; [exact Cm|apply bd_weak with 23%Z; auto; lia|apply bd_weak with 22%Z; auto; lia]. }
  set (nx := clampf qx pl pr) in *. set (ny := clampf qy pt pb) in *.
  assert (D : b2r r + 44 / 100 <= Rabs (b2r nx) \/ b2r r + 44 / 100 <= Rabs (b2r ny)).
  { destruct H as [H|H]; [left; destruct (R5 H)|right; destruct (S5 H)].
    - rewrite Rabs_pos_eq; lra. - rewrite Rabs_left; lra.
    - rewrite Rabs_pos_eq; lra. - rewrite Rabs_left; lra. }
  pose proof (Rabs_pos (b2r nx)) as PX. pose proof (Rabs_pos (b2r ny)) as PY.
  pose proof (r_sample_ok nx ny a sn cs 26 Bn Bm Ba) as [BS _]; [apply T|apply T|lia|].
  pose proof (sample_lower nx ny a sn cs 26 Bn Bm ltac:(lia) Ba La T) as LS.
  specialize (LS ltac:(lra)).
  destruct (over_one (calculate_r_sample nx ny a sn cs) r (2 * 26 + 43) BS ltac:(lia) Fr ltac:(lra)) as ((Fo & Ho) & Lo).
  { eapply Rle_trans; [|exact LS].
    set (m := b2r r + 44 / 100) in *.
    assert (N2 : m * m <= b2r nx * b2r nx + b2r ny * b2r ny).
    { assert (m0 : 0 <= m) by (unfold m; lra).
      pose proof (Rle_0_sqr (b2r nx)) as Q1. pose proof (Rle_0_sqr (b2r ny)) as Q2. unfold Rsqr in *.
      destruct D as [D|D]; pose proof (sq_of_abs _ _ m0 D); lra. }
    apply Rle_trans with (m * m * (1 - / 65536 - / 524288)); [|apply Rmult_le_compat_r; [lra|exact N2]].
    unfold m. set (R := b2r r) in *.
    assert (R * R <= 3 * R) by (apply Rmult_le_compat_r; lra). assert (0 <= R * R) by apply Rle_0_sqr.
    replace ((R + 44 / 100) * (R + 44 / 100)) with (R * R + 88 / 100 * R + 1936 / 10000) by field. lra. }
  rewrite (flt_spec f1 _ F1 Fo), V1, Rlt_bool_true by exact Lo. auto.
Qed.

Lemma rr_far : forall trig x y r a angle xp yp, (Z.abs xp <= 2097152)%Z -> (Z.abs yp <= 2097152)%Z ->
  bd x 20 -> bd y 20 -> fin r -> / 16 <= b2r r <= 65536 -> bd a 20 -> trig_ok (trig angle) ->
  far xp x r \/ far yp y r ->
  fin (rr_at trig x y r a angle xp yp) /\ 1 < b2r (rr_at trig x y r a angle xp yp).
Proof.
  intros trig x y r a angle xp yp Hx Hy Bx By Fr Hr Ba T H.
  unfold rr_at. fold (fix_aspect a). destruct (fix_aspect_ok a Ba) as (Ba' & La).
  destruct (trig angle) as (cs, sn) eqn:ET.
  destruct (f_of_Z_exact 3) as (V3 & F3); [lia|]. fold f3 in V3, F3.
  rewrite flt_spec, V3 by auto. destruct (Rlt_bool_spec (b2r r) 3).
  - apply aa_far; auto. lra.
  - apply plain_far; auto. lra.
Qed.

(** no effect at a distance *)
Lemma mask_far : forall trig x y r h s a angle xp yp, (Z.abs xp <= 2097152)%Z -> (Z.abs yp <= 2097152)%Z ->
  dab_ok trig x y r h s a angle -> b2r r <= 65536 ->
  far xp x r \/ far yp y r ->
  mask_value trig x y r (clampf h f0 f1) s a angle xp yp = Ok 0%Z.
Proof.
  intros trig x y r h s a angle xp yp Hx Hy [Bx By (Fr & Hr) _ _ Ba T] L H.
  destruct (rr_far trig x y r a angle xp yp Hx Hy Bx By Fr ltac:(lra) Ba T H) as (F & G).
  unfold mask_value, calculate_opa. destruct (segments (clampf h f0 f1) s) as (((o1, s1), o2), s2).
  destruct f1_val as (V1 & F1). rewrite flt_spec, V1, Rlt_bool_true by auto.
  vm_compute. reflexivity.
Qed.
