(** Accuracy of the approximate logarithm and power behind pigment painting
    (fastapprox/fastlog.h, fastexp.h, fastpow.h). *)
From Verif Require Import Base F32 F32Proofs Arith Color Spectral Blend OpaProofs RrProofs Paint PaintProofs.
From Coq Require Import Reals Lra.
From Flocq Require Import Core.Core IEEE754.BinarySingleNaN.
From Interval Require Import Tactic.
Local Open Scope R_scope.

(** ** The two approximants in exact arithmetic, with the constants as floats *)
Lemma log_core : forall m, 1/2 <= m <= 1 ->
  -15/100000 <= (2*m - 1) + 127 - 16282487/131072 - 12566389/8388608 * m - (14477731/8388608) / (11814137/33554432 + m) - (1 + ln m / ln 2) <= 15/1000000.
Proof. intros m H. interval with (i_bisect m, i_taylor m, i_degree 8, i_prec 40). Qed.
Definition pow_g (z : R) : R := 15895633/131072 + (14537470/524288) / (10155512/2097152 - z) - 12500109/8388608 * z + z - 127.
Lemma pow_core : forall z, 0 <= z <= 1 -> -6/100000 <= (1 + pow_g z) * exp (- z * ln 2) - 1 <= 2/100000.
Proof. intros z H. unfold pow_g. interval with (i_bisect z, i_taylor z, i_degree 8, i_prec 40). Qed.
Lemma pow_low : forall z, 0 <= z <= 1 -> -1/100000 <= pow_g z.
Proof. intros z H. unfold pow_g. interval with (i_bisect z, i_taylor z, i_degree 6, i_prec 40). Qed.
Lemma pow_high : forall z, 0 <= z <= 1 -> pow_g z <= 1 + 3/100000.
Proof. intros z H. unfold pow_g. interval with (i_bisect z, i_taylor z, i_degree 6, i_prec 40). Qed.

Lemma pow_half : forall z, 0 <= z <= 1/2 -> pow_g z <= 1/2.
Proof. intros z H. unfold pow_g. interval with (i_bisect z, i_taylor z, i_degree 6, i_prec 40). Qed.

(** ** Floats near a real number *)
Definition ap (x : f32) (v e : R) : Prop := fin x /\ Rabs (b2r x - v) <= e.

Lemma ap_weak : forall x v e f, ap x v e -> e <= f -> ap x v f.
Proof. intros x v e f [F H] L. split; [exact F|lra]. Qed.

Lemma ap_exact : forall x v, fin x -> b2r x = v -> ap x v 0.
Proof. intros x v F E. split; [exact F|]. rewrite E. replace (v - v) with 0 by ring. rewrite Rabs_R0. lra. Qed.

Lemma small_bpow : forall k x, (k <= 62)%Z -> Rabs x <= bpow radix2 k -> Rabs x <= bpow radix2 127.
Proof. intros k x K H. eapply Rle_trans; [exact H|]. apply bpow_le. lia. Qed.

Lemma ap_round : forall (x : f32) r v e k, fin x -> b2r x = rnd32 r -> (-125 <= k <= 62)%Z -> Rabs r <= bpow radix2 k ->
  Rabs (r - v) <= e -> ap x v (e + bpow radix2 (k - 25)).
Proof.
  intros x r v e k F E K B H. split; [exact F|]. rewrite E.
  pose proof (rnd32_err r k B ltac:(lia)) as R. replace (rnd32 r - v) with ((rnd32 r - r) + (r - v)) by ring.
  eapply Rle_trans; [apply Rabs_triang|]. lra.
Qed.

Lemma ap_add : forall k x y v w e f, ap x v e -> ap y w f -> (-125 <= k <= 62)%Z -> Rabs (v + w) + (e + f) <= bpow radix2 k ->
  ap (fadd x y) (v + w) (e + f + bpow radix2 (k - 25)).
Proof.
  intros k x y v w e f [Fx Hx] [Fy Hy] K B.
  assert (Rabs (b2r x + b2r y - (v + w)) <= e + f) as D.
  { replace (b2r x + b2r y - (v + w)) with ((b2r x - v) + (b2r y - w)) by ring. eapply Rle_trans; [apply Rabs_triang|]. lra. }
  assert (Rabs (b2r x + b2r y) <= bpow radix2 k) as M.
  { replace (b2r x + b2r y) with ((v + w) + (b2r x + b2r y - (v + w))) by ring. eapply Rle_trans; [apply Rabs_triang|]. lra. }
  destruct (fadd_spec x y Fx Fy) as (E & F); [apply (small_bpow k); [lia|exact M]|].
  eapply ap_round; eauto.
Qed.

Lemma ap_sub : forall k x y v w e f, ap x v e -> ap y w f -> (-125 <= k <= 62)%Z -> Rabs (v - w) + (e + f) <= bpow radix2 k ->
  ap (fsub x y) (v - w) (e + f + bpow radix2 (k - 25)).
Proof.
  intros k x y v w e f [Fx Hx] [Fy Hy] K B.
  assert (Rabs (b2r x - b2r y - (v - w)) <= e + f) as D.
  { replace (b2r x - b2r y - (v - w)) with ((b2r x - v) + - (b2r y - w)) by ring. eapply Rle_trans; [apply Rabs_triang|]. rewrite Rabs_Ropp. lra. }
  assert (Rabs (b2r x - b2r y) <= bpow radix2 k) as M.
  { replace (b2r x - b2r y) with ((v - w) + (b2r x - b2r y - (v - w))) by ring. eapply Rle_trans; [apply Rabs_triang|]. lra. }
  destruct (fsub_spec x y Fx Fy) as (E & F); [apply (small_bpow k); [lia|exact M]|].
  eapply ap_round; eauto.
Qed.

(** [a]: bound of the first factor's float, [b]: of the second factor's value *)
Lemma ap_mul : forall k a b x y v w e f, ap x v e -> ap y w f -> Rabs v + e <= a -> Rabs w <= b -> (-125 <= k <= 62)%Z -> Rabs (v * w) + (a * f + b * e) <= bpow radix2 k ->
  ap (fmul x y) (v * w) (a * f + b * e + bpow radix2 (k - 25)).
Proof.
  intros k a b x y v w e f [Fx Hx] [Fy Hy] A B K M0.
  pose proof (Rabs_pos (b2r x - v)) as P1. pose proof (Rabs_pos (b2r y - w)) as P2. pose proof (Rabs_pos v) as P3. pose proof (Rabs_pos w) as P4.
  assert (Rabs (b2r x) <= a) as Ax.
  { replace (b2r x) with (v + (b2r x - v)) by ring. eapply Rle_trans; [apply Rabs_triang|]. lra. }
  assert (Rabs (b2r x * b2r y - v * w) <= a * f + b * e) as D.
  { replace (b2r x * b2r y - v * w) with (b2r x * (b2r y - w) + w * (b2r x - v)) by ring. eapply Rle_trans; [apply Rabs_triang|]. rewrite !Rabs_mult.
    apply Rplus_le_compat; apply Rmult_le_compat; auto; apply Rabs_pos. }
  assert (Rabs (b2r x * b2r y) <= bpow radix2 k) as M.
  { replace (b2r x * b2r y) with ((v * w) + (b2r x * b2r y - v * w)) by ring. eapply Rle_trans; [apply Rabs_triang|]. lra. }
  destruct (fmul_spec x y Fx Fy) as (E & F); [apply (small_bpow k); [lia|exact M]|].
  eapply ap_round; eauto.
Qed.

(** [d]: positive lower bound of the divisor, of its value and of its float *)
Lemma ap_div : forall k d q x y v w e f, ap x v e -> ap y w f -> 0 < d -> d <= w - f -> Rabs (v / w) <= q -> (-125 <= k <= 62)%Z -> q + (e + q * f) / d <= bpow radix2 k ->
  ap (fdiv x y) (v / w) ((e + q * f) / d + bpow radix2 (k - 25)).
Proof.
  intros k d q x y v w e f [Fx Hx] [Fy Hy] D0 Dw Q K M0.
  assert (d <= b2r y) as Dy by (apply Rabs_le_inv in Hy; lra).
  assert (0 <= f) as f0 by (pose proof (Rabs_pos (b2r y - w)); lra).
  assert (0 <= q) as q0 by (pose proof (Rabs_pos (v / w)); lra).
  assert (Rabs (b2r x / b2r y - v / w) <= (e + q * f) / d) as D.
  { replace (b2r x / b2r y - v / w) with (((b2r x - v) - (v / w) * (b2r y - w)) * / b2r y) by (field; split; lra).
    rewrite Rabs_mult, (Rabs_pos_eq (/ b2r y)) by (left; apply Rinv_0_lt_compat; lra). unfold Rdiv at 2.
    apply Rmult_le_compat; [apply Rabs_pos|left; apply Rinv_0_lt_compat; lra| |apply Rinv_le; lra].
    eapply Rle_trans; [apply Rabs_triang|]. rewrite Rabs_Ropp, Rabs_mult. apply Rplus_le_compat; [exact Hx|]. apply Rmult_le_compat; auto; apply Rabs_pos. }
  assert (Rabs (b2r x / b2r y) <= bpow radix2 k) as M.
  { replace (b2r x / b2r y) with ((v / w) + (b2r x / b2r y - v / w)) by ring. eapply Rle_trans; [apply Rabs_triang|]. lra. }
  destruct (fdiv_spec x y Fx ltac:(lra)) as (E & F); [apply (small_bpow k); [lia|exact M]|].
  eapply ap_round; eauto.
Qed.

Lemma const_val : forall (x : f32) m e, B2SF x = SpecFloat.S754_finite false m e -> fin x /\ b2r x = IZR (Zpos m) * bpow radix2 e.
Proof.
  intros x m e E. split.
  - unfold fin. rewrite <- is_finite_SF_B2SF, E. reflexivity.
  - rewrite <- (SF2R_B2SF 24 128), E. reflexivity.
Qed.

Ltac constant m e :=
  match goal with |- ap ?x ?v 0 =>
    let E := fresh in
    assert (B2SF x = SpecFloat.S754_finite false m e) as E by (vm_compute; reflexivity);
    destruct (const_val x m e E); apply ap_exact; [assumption|];
    match goal with H : b2r x = _ |- _ => rewrite H end; clear; unfold bpow; simpl; lra
  end.

(** ** The logarithm *)
Lemma mantissa_small : forall m e, SpecFloat.bounded 24 128 m e = true -> (Zpos m < 16777216)%Z.
Proof.
  intros m e C. apply andb_prop in C. destruct C as (C & _). unfold SpecFloat.canonical_mantissa in C. apply Zeq_bool_eq in C.
  unfold SpecFloat.fexp, SpecFloat.emin in C. rewrite Digits.Zpos_digits2_pos in C.
  pose proof (Digits.Zdigits_correct radix2 (Zpos m)) as (_ & K). rewrite Z.abs_eq in K by lia.
  assert (Digits.Zdigits radix2 (Zpos m) <= 24)%Z as D by lia. eapply Z.lt_le_trans; [exact K|].
  change 16777216%Z with (radix2 ^ 24)%Z. apply Z.pow_le_mono_r; [reflexivity|exact D].
Qed.

Lemma split_float : forall x : f32, fin x -> / 4096 <= b2r x <= 3/2 ->
  exists m e, (8388608 <= m < 16777216)%Z /\ (115 <= e <= 127)%Z /\ bits_of x = (e * 8388608 + (m - 8388608))%Z /\
    b2r x = IZR m * bpow radix2 (e - 150).
Proof.
  intros x F H.
  assert (115 * 8388608 <= bits_of x < 128 * 8388608)%Z as B.
  { pose proof (bits_range x (-12) 1 F ltac:(lia) ltac:(lia)) as K. change (bpow radix2 (-12)) with (/ 4096) in K. change (bpow radix2 1) with 2 in K. specialize (K ltac:(lra)).
    destruct x as [s|s| |s m e Bd]; try discriminate.
    { exfalso. cbn [b2r] in H. simpl in H. lra. }
    assert (s = false) as ->.
    { destruct s; auto. exfalso. unfold B2R in H. assert (F2R (Float radix2 (cond_Zopp true (Zpos m)) e) < 0); [|lra]. apply F2R_lt_0. reflexivity. }
    revert K. unfold bits_of, sign_bit. destruct (Z.ltb_spec (Zpos m) 8388608) as [L|L]; intros K; [lia|].
    assert (-149 < e)%Z as He by (pose proof (mantissa_small m e Bd); lia). pose proof (normal_mantissa m e Bd He) as Hm.
    assert (e + 23 < 1)%Z; [|lia].
    apply (lt_bpow radix2). change (bpow radix2 1) with 2. unfold B2R, F2R in H. cbn [Fnum Fexp cond_Zopp] in H.
    apply Rle_lt_trans with (IZR (Zpos m) * bpow radix2 e); [|lra].
    replace (bpow radix2 (e + 23)) with (bpow radix2 23 * bpow radix2 e) by (rewrite <- bpow_plus; f_equal; lia).
    apply Rmult_le_compat_r; [apply bpow_ge_0|]. change (bpow radix2 23) with (IZR 8388608). apply IZR_le. lia. }
  destruct x as [s|s| |s m e Bd]; try discriminate.
  { exfalso. cbn [b2r] in H. simpl in H. lra. }
  assert (s = false) as ->.
  { destruct s; auto. exfalso. unfold B2R in H. assert (F2R (Float radix2 (cond_Zopp true (Zpos m)) e) < 0); [|lra]. apply F2R_lt_0. reflexivity. }
  revert B. unfold bits_of, sign_bit. destruct (Z.ltb_spec (Zpos m) 8388608) as [L|L]; intros B; [lia|].
  assert (-149 < e)%Z as He by (pose proof (mantissa_small m e Bd); lia). pose proof (normal_mantissa m e Bd He) as Hm.
  exists (Zpos m), (e + 150)%Z. split; [exact Hm|]. split; [lia|]. split; [lia|].
  unfold b2r, B2R, F2R. cbn [Fnum Fexp cond_Zopp]. f_equal. f_equal. lia.
Qed.

Definition log2 (x : R) : R := ln x / ln 2.

Lemma ln2_pos : 0 < ln 2. Proof. rewrite <- ln_1. apply ln_increasing; lra. Qed.

Lemma ln_bpow : forall e, ln (bpow radix2 e) = IZR e * ln 2.
Proof.
  intros e. rewrite bpow_exp. rewrite ln_exp. reflexivity.
Qed.

Lemma fastlog_close : forall x : f32, fin x -> / 4096 <= b2r x <= 3/2 -> ap (fastlog2 x) (log2 (b2r x)) (17/100000).
Proof.
  intros x F H. destruct (split_float x F H) as (m & e & Hm & He & Ei & Ev).
  unfold fastlog2. cbv zeta. rewrite Ei.
  assert ((e * 8388608 + (m - 8388608)) mod 8388608 = m - 8388608)%Z as Em.
  { symmetry. apply Z.mod_unique with e; lia. }
  rewrite Em. set (i := (e * 8388608 + (m - 8388608))%Z) in *.
  destruct (of_bits_val (m - 8388608 + 1056964608)) as (m' & Hm' & Em' & Fx & Vx); [lia|].
  assert ((m - 8388608 + 1056964608) / 8388608 = 126)%Z as D by (symmetry; apply Z.div_unique with (m - 8388608)%Z; lia).
  rewrite D in Vx, Em'. assert (m' = m) as -> by lia.
  set (mx := of_bits (m - 8388608 + 1056964608)) in *.
  set (M := IZR m / 16777216).
  assert (1/2 <= M < 1) as HM.
  { assert (IZR 8388608 <= IZR m < IZR 16777216) as K by (split; [apply IZR_le|apply IZR_lt]; lia). unfold M. lra. }
  assert (ap mx M 0) as Amx.
  { apply ap_exact; [exact Fx|]. rewrite Vx. unfold M, Rdiv. reflexivity. }
  assert (115 <= IZR e <= 127) as HE by (split; apply IZR_le; lia).
  assert (IZR i / 8388608 = IZR e + (2 * M - 1)) as Yv.
  { unfold i, M. rewrite plus_IZR, mult_IZR, minus_IZR. field. }
  assert (IZR e + (2 * M - 1) <= 1275/10) as YU.
  { destruct (Z.eq_dec e 127) as [->|NE].
    - change (bpow radix2 (127 - 150)) with (/ 8388608) in Ev. unfold M. lra.
    - assert (IZR e <= 126) by (apply (IZR_le _ 126); lia). lra. }
  assert (ap (f_of_Z i) (IZR i) 32) as Ai.
  { assert (0 <= IZR i <= 1073741824) as K. { split; [apply IZR_le; lia|]. apply (IZR_le _ 1073741824). lia. }
    destruct (big_Z i) as (E & Fi); [lia|lra|].
    replace 32 with (0 + bpow radix2 (30 - 25)) by (change (bpow radix2 (30 - 25)) with 32; ring).
    apply (ap_round _ (IZR i)); auto; [lia| |replace (IZR i - IZR i) with 0 by ring; rewrite Rabs_R0; lra].
    rewrite Rabs_pos_eq by lra. change (bpow radix2 30) with 1073741824. lra. }
  assert (ap (flit 1 8388608) (/ 8388608) 0) as Au by (constant 8388608%positive (-46)%Z).
  assert (ap (flong 12422551499 100000000) (16282487/131072) 0) as A0 by (constant 16282487%positive (-17)%Z).
  assert (ap (flong 1498030302 1000000000) (12566389/8388608) 0) as A1 by (constant 12566389%positive (-23)%Z).
  assert (ap (flong 172587999 100000000) (14477731/8388608) 0) as A2 by (constant 14477731%positive (-23)%Z).
  assert (ap (flong 3520887068 10000000000) (11814137/33554432) 0) as A3 by (constant 11814137%positive (-25)%Z).
  (* i / 2^23 *)
  assert (ap (fmul (f_of_Z i) (flit 1 8388608)) (IZR i * / 8388608) (8/1000000)) as B1.
  { eapply ap_weak; [apply (ap_mul 7 1100000000 (/ 8388608) _ _ _ _ _ _ Ai Au)|].
    - rewrite Rabs_pos_eq by (apply IZR_le; lia). assert (IZR i <= 1073741824) by (apply (IZR_le _ 1073741824); lia). lra.
    - rewrite Rabs_pos_eq; lra.
    - lia.
    - change (IZR i * / 8388608) with (IZR i / 8388608). rewrite Yv. rewrite Rabs_pos_eq by lra. change (bpow radix2 7) with 128. lra.
    - change (bpow radix2 (7 - 25)) with (/ 262144). lra. }
  change (IZR i * / 8388608) with (IZR i / 8388608) in B1. rewrite Yv in B1.
  assert (ap (fsub (fmul (f_of_Z i) (flit 1 8388608)) (flong 12422551499 100000000)) (IZR e + (2 * M - 1) - 16282487/131072) (85/10000000)) as B2.
  { eapply ap_weak; [apply (ap_sub 4 _ _ _ _ _ _ B1 A0)|].
    - lia.
    - change (bpow radix2 4) with 16. assert (Rabs (IZR e + (2 * M - 1) - 16282487 / 131072) <= 12) by (apply Rabs_le; lra). lra.
    - change (bpow radix2 (4 - 25)) with (/ 2097152). lra. }
  assert (ap (fmul (flong 1498030302 1000000000) mx) (12566389/8388608 * M) (/ 10000000)) as B3.
  { eapply ap_weak; [apply (ap_mul 1 2 1 _ _ _ _ _ _ A1 Amx)|].
    - rewrite Rabs_pos_eq by lra. lra.
    - rewrite Rabs_pos_eq; lra.
    - lia.
    - change (bpow radix2 1) with 2. rewrite Rabs_pos_eq by lra. lra.
    - change (bpow radix2 (1 - 25)) with (/ 16777216). lra. }
  assert (ap (fsub (fsub (fmul (f_of_Z i) (flit 1 8388608)) (flong 12422551499 100000000)) (fmul (flong 1498030302 1000000000) mx))
             (IZR e + (2 * M - 1) - 16282487/131072 - 12566389/8388608 * M) (92/10000000)) as B4.
  { eapply ap_weak; [apply (ap_sub 4 _ _ _ _ _ _ B2 B3)|].
    - lia.
    - change (bpow radix2 4) with 16. match goal with |- Rabs ?a + _ <= _ => assert (Rabs a <= 12) by (apply Rabs_le; lra) end. lra.
    - change (bpow radix2 (4 - 25)) with (/ 2097152). lra. }
  assert (ap (fadd (flong 3520887068 10000000000) mx) (11814137/33554432 + M) (/ 10000000)) as B5.
  { eapply ap_weak; [apply (ap_add 1 _ _ _ _ _ _ A3 Amx)|].
    - lia.
    - change (bpow radix2 1) with 2. rewrite Rabs_pos_eq by lra. lra.
    - change (bpow radix2 (1 - 25)) with (/ 16777216). lra. }
  assert (0 <= 14477731/8388608 / (11814137/33554432 + M) <= 3) as HQ.
  { split; [apply Rmult_le_pos; [lra|left; apply Rinv_0_lt_compat; lra]|].
    apply Rmult_le_reg_r with (11814137/33554432 + M); [lra|]. unfold Rdiv at 1. rewrite Rmult_assoc, Rinv_l by lra. lra. }
  assert (ap (fdiv (flong 172587999 100000000) (fadd (flong 3520887068 10000000000) mx)) (14477731/8388608 / (11814137/33554432 + M)) (6/10000000)) as B6.
  { eapply ap_weak; [apply (ap_div 2 (8/10) 3 _ _ _ _ _ _ A2 B5)|].
    - lra.
    - lra.
    - rewrite Rabs_pos_eq; lra.
    - lia.
    - change (bpow radix2 2) with 4. lra.
    - change (bpow radix2 (2 - 25)) with (/ 8388608). lra. }
  assert (log2 (b2r x) = IZR e - 126 + ln M / ln 2) as LV.
  { unfold log2. rewrite Ev. replace (IZR m * bpow radix2 (e - 150)) with (M * bpow radix2 (e - 126)).
    - rewrite ln_mult by (try apply bpow_gt_0; lra). rewrite ln_bpow, minus_IZR. pose proof ln2_pos. field. lra.
    - unfold M. replace (e - 126)%Z with (e - 150 + 24)%Z by lia. rewrite bpow_plus. change (bpow radix2 24) with 16777216. field. }
  pose proof (log_core M ltac:(lra)) as C.
  assert (-12 <= IZR e + (2 * M - 1) - 16282487/131072 - 12566389/8388608 * M <= 12) as R4 by lra.
  destruct (ap_sub 4 _ _ _ _ _ _ B4 B6) as (Fr & Hr).
  - lia.
  - change (bpow radix2 4) with 16. match goal with |- Rabs ?a + _ <= _ => assert (Rabs a <= 15) by (apply Rabs_le; lra) end. lra.
  - split; [exact Fr|]. rewrite LV. change (bpow radix2 (4 - 25)) with (/ 2097152) in Hr.
    apply Rabs_le_inv in Hr. apply Rabs_le. lra.
Qed.
