(** Accuracy of the approximate power of two and of the power function. *)
From Verif Require Import Base F32 F32Proofs Arith Color Spectral Blend OpaProofs RrProofs Paint PaintProofs PigmentLog.
From Coq Require Import Reals Lra.
From Flocq Require Import Core.Core IEEE754.BinarySingleNaN.
Local Open Scope R_scope.

Definition two_to (x : R) : R := exp (x * ln 2).
Lemma two_to_plus : forall x y, two_to (x + y) = two_to x * two_to y.
Proof. intros. unfold two_to. rewrite Rmult_plus_distr_r. apply exp_plus. Qed.
Lemma two_to_Z : forall n, two_to (IZR n) = bpow radix2 n.
Proof. intros. unfold two_to. rewrite bpow_exp. reflexivity. Qed.
Lemma two_to_pos : forall x, 0 < two_to x. Proof. intros. apply exp_pos. Qed.
Lemma two_to_mono : forall x y, x <= y -> two_to x <= two_to y.
Proof. intros x y H. unfold two_to. pose proof ln2_pos. destruct H as [H|H]; [left; apply exp_increasing; apply Rmult_lt_compat_r; auto|right; congruence]. Qed.

(** reading the bits *)
Lemma of_bits_real : forall i, (8388608 <= i < 253 * 8388608)%Z ->
  let E := (i / 8388608)%Z in
  fin (of_bits i) /\ b2r (of_bits i) = (1 + (IZR i / 8388608 - IZR E)) * bpow radix2 (E - 127) /\
  0 <= IZR i / 8388608 - IZR E < 1.
Proof.
  intros i Hi E. destruct (of_bits_val i Hi) as (m & Hm & Em & F & V). fold E in Em, V.
  split; [exact F|].
  assert (IZR i / 8388608 - IZR E = IZR m / 8388608 - 1) as Q.
  { rewrite Em at 1. rewrite plus_IZR, mult_IZR, minus_IZR. field. }
  rewrite Q. split.
  - rewrite V. replace (E - 127)%Z with (E - 150 + 23)%Z by lia. rewrite bpow_plus. change (bpow radix2 23) with 8388608. field.
  - assert (IZR 8388608 <= IZR m < IZR 16777216) as K by (split; [apply IZR_le|apply IZR_lt]; lia). lra.
Qed.

(** The value read from t*2^23, for t near n + 127 + g with g between 0 and 1. *)
Lemma bits_near : forall i n u, (8388608 <= i < 253 * 8388608)%Z -> IZR i / 8388608 = IZR n + 127 + u ->
  -4/100000 <= u <= 1 + 6/100000 ->
  fin (of_bits i) /\ Rabs (b2r (of_bits i) - (1 + u) * bpow radix2 n) <= 6/100000 * bpow radix2 n.
Proof.
  intros i n u Hi Ei Hu. destruct (of_bits_real i Hi) as (F & V & K). split; [exact F|]. rewrite V.
  set (E := (i / 8388608)%Z) in *. rewrite Ei in V, K |- *.
  assert (IZR (n + 125) < IZR E < IZR (n + 129)) as EE by (rewrite !plus_IZR; lra).
  destruct EE as [E1 E2]. apply lt_IZR in E1, E2. pose proof (bpow_gt_0 radix2 n) as P.
  assert (E = n + 126 \/ E = n + 127 \/ E = n + 128)%Z as [Q|[Q|Q]] by lia; rewrite Q in *; rewrite plus_IZR in *.
  - replace (n + 126 - 127)%Z with (n + -1)%Z by lia. rewrite bpow_plus. change (bpow radix2 (-1)) with (/ 2).
    match goal with |- Rabs ?a <= _ => replace a with ((- u / 2) * bpow radix2 n) by field end.
    rewrite Rabs_mult, (Rabs_pos_eq (bpow radix2 n)) by lra. apply Rmult_le_compat_r; [lra|]. apply Rabs_le. lra.
  - replace (n + 127 - 127)%Z with n by lia.
    match goal with |- Rabs ?a <= _ => replace a with 0 by ring end. rewrite Rabs_R0. apply Rmult_le_pos; lra.
  - replace (n + 128 - 127)%Z with (n + 1)%Z by lia. rewrite bpow_plus. change (bpow radix2 1) with 2.
    match goal with |- Rabs ?a <= _ => replace a with ((u - 1) * bpow radix2 n) by ring end.
    rewrite Rabs_mult, (Rabs_pos_eq (bpow radix2 n)) by lra. apply Rmult_le_compat_r; [lra|]. apply Rabs_le. lra.
Qed.

Lemma fastpow2_close : forall p : f32, fin p -> -13 <= b2r p <= 1/2 ->
  exists v, fastpow2 p = Ok v /\ fin v /\ Rabs (b2r v - two_to (b2r p)) <= 15/100000 * two_to (b2r p).
Proof.
  intros p F H. unfold fastpow2. destruct (f_of_Z_exact 0 ltac:(lia)) as (E0 & F0). destruct (f_of_Z_exact (-126) ltac:(lia)) as (E126 & F126).
  rewrite (flt_spec p (f_of_Z (-126))), E126 by auto. rewrite Rlt_bool_false by lra.
  rewrite (flt_spec p (f_of_Z 0)), E0 by auto.
  assert (-17 <= Ztrunc (b2r p) <= 25)%Z as W by (apply Ztrunc_between; lra || lia).
  unfold f_to_int. rewrite f_to_Z_ok by (auto; unfold INT_MIN, INT_MAX; lia). cbn [obind].
  set (w := Ztrunc (b2r p)) in *. destruct (f_of_Z_exact w) as (Ew & Fw); [lia|].
  set (z := fadd (fsub p (f_of_Z w)) (if Rlt_bool (b2r p) 0 then f1 else f_of_Z 0)).
  (* whole and fractional part of the exponent *)
  assert (exists n : Z, 0 <= b2r p - IZR n <= 1 /\ ap z (b2r p - IZR n) (/ 10000000)) as (n & Hn & Az).
  { assert (ap p (b2r p) 0) as Ap by (apply ap_exact; auto). assert (ap (f_of_Z w) (IZR w) 0) as Aw by (apply ap_exact; auto).
    destruct f1_val as (V1 & F1). destruct (Rlt_bool_spec (b2r p) 0) as [N|N].
    - assert (-1 <= b2r p - IZR w <= 0)%R as K.
      { unfold w. rewrite Ztrunc_ceil by lra. pose proof (Zceil_ub (b2r p)). pose proof (Zceil_lb (b2r p)). lra. }
      exists (w - 1)%Z. rewrite minus_IZR. split; [lra|].
      replace (b2r p - (IZR w - 1)) with (b2r p - IZR w + 1) by ring.
      assert (ap (fsub p (f_of_Z w)) (b2r p - IZR w) (/ 32000000)) as S.
      { eapply ap_weak; [apply (ap_sub 0 _ _ _ _ _ _ Ap Aw); [lia|]|].
        - change (bpow radix2 0) with 1. rewrite Rabs_left1 by lra. lra.
        - change (bpow radix2 (0 - 25)) with (/ 33554432). lra. }
      eapply ap_weak; [apply (ap_add 1 _ _ _ 1 _ 0 S); [apply ap_exact; auto|lia|]|].
      + change (bpow radix2 1) with 2. rewrite Rabs_pos_eq by lra. lra.
      + change (bpow radix2 (1 - 25)) with (/ 16777216). lra.
    - assert (0 <= b2r p - IZR w <= 1)%R as K.
      { unfold w. rewrite Ztrunc_floor by lra. pose proof (Zfloor_ub (b2r p)). pose proof (Zfloor_lb (b2r p)). lra. }
      exists w. split; [lra|].
      replace (b2r p - IZR w) with (b2r p - IZR w + 0) by ring.
      assert (ap (fsub p (f_of_Z w)) (b2r p - IZR w) (/ 32000000)) as S.
      { eapply ap_weak; [apply (ap_sub 0 _ _ _ _ _ _ Ap Aw); [lia|]|].
        - change (bpow radix2 0) with 1. rewrite Rabs_pos_eq by lra. lra.
        - change (bpow radix2 (0 - 25)) with (/ 33554432). lra. }
      eapply ap_weak; [apply (ap_add 1 _ _ _ 0 _ 0 S); [apply ap_exact; auto|lia|]|].
      + change (bpow radix2 1) with 2. rewrite Rabs_pos_eq by lra. lra.
      + change (bpow radix2 (1 - 25)) with (/ 16777216). lra. }
  clearbody z. clear w W Ew Fw.
  set (X := b2r p - IZR n) in *.
  assert (ap p (b2r p) 0) as Ap by (apply ap_exact; auto).
  assert (ap (flong 1212740575 10000000) (15895633/131072) 0) as C1 by (constant 15895633%positive (-17)%Z).
  assert (ap (flong 277280233 10000000) (14537470/524288) 0) as C2 by (constant 14537470%positive (-19)%Z).
  assert (ap (flong 484252568 100000000) (10155512/2097152) 0) as C3 by (constant 10155512%positive (-21)%Z).
  assert (ap (flong 149012907 100000000) (12500109/8388608) 0) as C4 by (constant 12500109%positive (-23)%Z).
  assert (ap (fadd p (flong 1212740575 10000000)) (b2r p + 15895633/131072) (4/1000000)) as D1.
  { eapply ap_weak; [apply (ap_add 7 _ _ _ _ _ _ Ap C1); [lia|]|].
    - change (bpow radix2 7) with 128. rewrite Rabs_pos_eq by lra. lra.
    - change (bpow radix2 (7 - 25)) with (/ 262144). lra. }
  assert (ap (fsub (flong 484252568 100000000) z) (10155512/2097152 - X) (4/10000000)) as D2.
  { eapply ap_weak; [apply (ap_sub 3 _ _ _ _ _ _ C3 Az); [lia|]|].
    - change (bpow radix2 3) with 8. rewrite Rabs_pos_eq by lra. lra.
    - change (bpow radix2 (3 - 25)) with (/ 4194304). lra. }
  assert (5 <= 14537470/524288 / (10155512/2097152 - X) <= 15/2) as HQ.
  { set (q := 14537470/524288 / (10155512/2097152 - X)).
    assert (q * (10155512/2097152 - X) = 14537470/524288) as Q by (unfold q; field; lra).
    split.
    - apply Rmult_le_reg_r with (10155512/2097152 - X); lra.
    - apply Rmult_le_reg_r with (10155512/2097152 - X); lra. }
  assert (ap (fdiv (flong 277280233 10000000) (fsub (flong 484252568 100000000) z)) (14537470/524288 / (10155512/2097152 - X)) (15/10000000)) as D3.
  { eapply ap_weak; [apply (ap_div 3 (38/10) (15/2) _ _ _ _ _ _ C2 D2)|].
    - lra.
    - lra.
    - rewrite Rabs_pos_eq; lra.
    - lia.
    - change (bpow radix2 3) with 8. lra.
    - change (bpow radix2 (3 - 25)) with (/ 4194304). lra. }
  assert (ap (fmul (flong 149012907 100000000) z) (12500109/8388608 * X) (3/10000000)) as D4.
  { eapply ap_weak; [apply (ap_mul 1 (3/2) 1 _ _ _ _ _ _ C4 Az)|].
    - rewrite Rabs_pos_eq by lra. lra.
    - rewrite Rabs_pos_eq by lra. lra.
    - lia.
    - change (bpow radix2 1) with 2. rewrite Rabs_pos_eq by lra. lra.
    - change (bpow radix2 (1 - 25)) with (/ 16777216). lra. }
  pose proof (pow_core X ltac:(lra)) as PC. pose proof (pow_low X ltac:(lra)) as PL. pose proof (pow_high X ltac:(lra)) as PH.
  assert (b2r p + 15895633/131072 + 14537470/524288 / (10155512/2097152 - X) - 12500109/8388608 * X = IZR n + 127 + pow_g X) as GE.
  { unfold pow_g. replace (b2r p) with (IZR n + X) by (unfold X; ring). field. lra. }
  assert (-14 <= IZR n <= 0) as Nb.
  { split; [unfold X in Hn; lra|]. apply IZR_le. apply Z.lt_succ_r. apply lt_IZR. change (IZR (Coq.ZArith.BinInt.Z.succ 0)) with 1. unfold X in Hn; lra. }
  assert (IZR n + 127 + pow_g X <= 1276/10) as TU.
  { destruct (Z.eq_dec n 0) as [->|NZ].
    - pose proof (pow_half X ltac:(unfold X in *; lra)). lra.
    - assert (IZR n <= -1). { apply (IZR_le _ (-1)). assert (n <= 0)%Z by (apply le_IZR; lra). lia. } lra. }
  set (s := fsub (fadd (fadd p (flong 1212740575 10000000)) (fdiv (flong 277280233 10000000) (fsub (flong 484252568 100000000) z))) (fmul (flong 149012907 100000000) z)).
  assert (ap s (IZR n + 127 + pow_g X) (18/1000000)) as D5.
  { assert (ap (fadd (fadd p (flong 1212740575 10000000)) (fdiv (flong 277280233 10000000) (fsub (flong 484252568 100000000) z)))
               (b2r p + 15895633/131072 + 14537470/524288 / (10155512/2097152 - X)) (135/10000000)) as D51.
    { eapply ap_weak; [apply (ap_add 8 _ _ _ _ _ _ D1 D3); [lia|]|].
      - change (bpow radix2 8) with 256. rewrite Rabs_pos_eq by lra. lra.
      - change (bpow radix2 (8 - 25)) with (/ 131072). lra. }
    rewrite <- GE. eapply ap_weak; [apply (ap_sub 7 _ _ _ _ _ _ D51 D4); [lia|]|].
    - change (bpow radix2 7) with 128. rewrite GE. rewrite Rabs_pos_eq by lra. lra.
    - change (bpow radix2 (7 - 25)) with (/ 262144). lra. }
  clearbody s. clear D1 D2 D3 D4 C1 C2 C3 C4 z Az GE HQ.
  destruct D5 as (Fs & Hs). apply Rabs_le_inv in Hs.
  assert (ap (fmul (f_of_Z 8388608) s) (8388608 * (IZR n + 127 + pow_g X)) (8388608 * (22/1000000))) as D6.
  { destruct (f_of_Z_exact 8388608 ltac:(lia)) as (E8 & F8).
    eapply ap_weak; [apply (ap_mul 30 8388608 128 (f_of_Z 8388608) s 8388608 _ 0 (18/1000000)); [apply ap_exact; auto|split; [exact Fs|apply Rabs_le; lra]|..]|].
    - rewrite Rabs_pos_eq by lra. lra.
    - rewrite Rabs_pos_eq by lra. lra.
    - lia.
    - change (bpow radix2 30) with 1073741824. rewrite Rabs_pos_eq by lra. lra.
    - change (bpow radix2 (30 - 25)) with 32. lra. }
  destruct D6 as (F6 & H6). apply Rabs_le_inv in H6. unfold f_to_u32.
  set (r := b2r (fmul (f_of_Z 8388608) s)) in *.
  assert (0 <= r) as R0 by lra.
  assert (IZR (Ztrunc r) <= r < IZR (Ztrunc r) + 1) as TR.
  { rewrite Ztrunc_floor by lra. pose proof (Zfloor_lb r). pose proof (Zfloor_ub r). lra. }
  assert (8388608 <= Ztrunc r < 253 * 8388608)%Z as TB.
  { split.
    - apply le_IZR. assert (IZR 8388608 <= IZR (Ztrunc r)); [|assumption]. lra.
    - apply lt_IZR. rewrite mult_IZR. lra. }
  rewrite f_to_Z_ok by (auto; fold r; lia). cbn [obind]. fold r. eexists. split; [reflexivity|].
  set (u := IZR (Ztrunc r) / 8388608 - IZR n - 127).
  destruct (bits_near (Ztrunc r) n u TB) as (Fv & Hv); [unfold u; ring|unfold u; lra|].
  split; [exact Fv|].
  assert (two_to (b2r p) = two_to X * bpow radix2 n) as TP.
  { rewrite <- two_to_Z, <- two_to_plus. f_equal. unfold X. ring. }
  rewrite TP. pose proof (bpow_gt_0 radix2 n) as BP. set (b := bpow radix2 n) in *.
  assert (1 <= two_to X) as T1. { rewrite <- exp_0. unfold two_to. replace 0 with (0 * ln 2) by ring. apply two_to_mono. lra. }
  assert (Rabs (1 + u - two_to X) <= 9/100000 * two_to X) as U.
  { assert (exp (- X * ln 2) * two_to X = 1) as I1.
    { unfold two_to. rewrite <- exp_plus. replace (- X * ln 2 + X * ln 2) with 0 by ring. apply exp_0. }
    assert ((1 + pow_g X) = (1 + pow_g X) * exp (- X * ln 2) * two_to X) as I2 by (rewrite Rmult_assoc, I1; ring).
    set (c := (1 + pow_g X) * exp (- X * ln 2)) in *.
    assert (-6/100000 * two_to X <= (c - 1) * two_to X <= 2/100000 * two_to X) as I3 by (split; apply Rmult_le_compat_r; lra).
    assert (-23/1000000 <= u - pow_g X <= 23/1000000) as I4 by (unfold u; lra).
    apply Rabs_le. lra. }
  replace (b2r (of_bits (Ztrunc r)) - two_to X * b) with ((b2r (of_bits (Ztrunc r)) - (1 + u) * b) + (1 + u - two_to X) * b) by ring.
  eapply Rle_trans; [apply Rabs_triang|]. rewrite (Rabs_mult (1 + u - two_to X)), (Rabs_pos_eq b) by lra.
  assert (Rabs (1 + u - two_to X) * b <= 9/100000 * two_to X * b) by (apply Rmult_le_compat_r; lra).
  assert (1 * b <= two_to X * b) by (apply Rmult_le_compat_r; lra). lra.
Qed.
