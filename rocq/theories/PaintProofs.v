(** The spectral mixing of Paint.v: when it is defined and how large it can get. *)
From Verif Require Import Base F32 F32Proofs Arith Color Spectral Blend RrProofs Paint.
From Coq Require Import Reals Lra.
From Flocq Require Import Core.Core IEEE754.BinarySingleNaN.
Local Open Scope Z_scope.

(** ** Interval arithmetic with rounding *)
Definition iv (lo : R) (x : f32) (hi : R) : Prop := fin x /\ (lo <= b2r x <= hi)%R.

Lemma rep32_dy : forall n k, Z.abs n <= 16777216 -> 0 <= k <= 100 -> rep32 (IZR n * / IZR (2 ^ k)).
Proof.
  intros n k Hn Hk. replace (/ IZR (2 ^ k))%R with (bpow radix2 (- k)); [apply rep32_scaled; lia|].
  rewrite bpow_opp, bpow_Z by lia. reflexivity.
Qed.
Ltac rp := first [apply rep32_IZR; lia | apply (rep32_dy 1 10); lia | apply (rep32_dy 1 11); lia | apply (rep32_dy 1 12); lia
  | replace (/ 2)%R with (1 * / IZR (2 ^ 1))%R by (simpl; lra); apply (rep32_dy 1 1); lia
  | replace (/ 4)%R with (1 * / IZR (2 ^ 2))%R by (simpl; lra); apply (rep32_dy 1 2); lia
  | replace (/ 1024)%R with (1 * / IZR (2 ^ 10))%R by (simpl; lra); apply (rep32_dy 1 10); lia
  | replace (/ 2048)%R with (1 * / IZR (2 ^ 11))%R by (simpl; lra); apply (rep32_dy 1 11); lia
  | replace (/ 4096)%R with (1 * / IZR (2 ^ 12))%R by (simpl; lra); apply (rep32_dy 1 12); lia ].

Lemma big127 : forall x : R, (Rabs x <= 4611686018427387904)%R -> (Rabs x <= bpow radix2 127)%R.
Proof. intros x H. eapply Rle_trans; [exact H|]. change 4611686018427387904%R with (bpow radix2 62). apply bpow_le. lia. Qed.

Definition mid (x : R) : Prop := (-4611686018427387904 <= x <= 4611686018427387904)%R.

Lemma iv_rnd : forall x lo hi, rep32 lo -> rep32 hi -> (lo <= x <= hi)%R -> (lo <= rnd32 x <= hi)%R.
Proof. intros. split; [apply rnd32_ge_r|apply rnd32_le_r]; auto; lra. Qed.

Lemma iv_weak : forall a x b lo hi, iv a x b -> (lo <= a)%R -> (b <= hi)%R -> iv lo x hi.
Proof. intros a x b lo hi (F & H) A B. split; auto. lra. Qed.

Lemma iv_add : forall lo hi a x b c y d, iv a x b -> iv c y d -> rep32 lo -> rep32 hi -> mid lo -> mid hi ->
  (lo <= a + c)%R -> (b + d <= hi)%R -> iv lo (fadd x y) hi.
Proof.
  unfold mid. intros lo hi a x b c y d (Fx & Hx) (Fy & Hy) R1 R2 M1 M2 L H.
  destruct (fadd_spec x y Fx Fy) as (E & F); [apply big127; apply Rabs_le; lra|].
  split; auto. rewrite E. apply iv_rnd; auto; lra.
Qed.
Lemma iv_sub : forall lo hi a x b c y d, iv a x b -> iv c y d -> rep32 lo -> rep32 hi -> mid lo -> mid hi ->
  (lo <= a - d)%R -> (b - c <= hi)%R -> iv lo (fsub x y) hi.
Proof.
  unfold mid. intros lo hi a x b c y d (Fx & Hx) (Fy & Hy) R1 R2 M1 M2 L H.
  destruct (fsub_spec x y Fx Fy) as (E & F); [apply big127; apply Rabs_le; lra|].
  split; auto. rewrite E. apply iv_rnd; auto; lra.
Qed.
(** factors that are not negative *)
Lemma iv_mul : forall lo hi a x b c y d, iv a x b -> iv c y d -> (0 <= a)%R -> (0 <= c)%R -> rep32 lo -> rep32 hi -> mid lo -> mid hi ->
  (lo <= a * c)%R -> (b * d <= hi)%R -> iv lo (fmul x y) hi.
Proof.
  unfold mid. intros lo hi a x b c y d (Fx & Hx) (Fy & Hy) A C R1 R2 M1 M2 L H.
  assert (a * c <= b2r x * b2r y <= b * d)%R as P by (split; apply Rmult_le_compat; lra).
  destruct (fmul_spec x y Fx Fy) as (E & F); [apply big127; apply Rabs_le; lra|].
  split; auto. rewrite E. apply iv_rnd; auto; lra.
Qed.
Lemma iv_div : forall lo hi a x b c y d, iv a x b -> iv c y d -> (0 <= a)%R -> (0 < c)%R -> rep32 lo -> rep32 hi -> mid lo -> mid hi ->
  (lo * d <= a)%R -> (b <= hi * c)%R -> (0 <= lo)%R -> iv lo (fdiv x y) hi.
Proof.
  unfold mid. intros lo hi a x b c y d (Fx & Hx) (Fy & Hy) A C R1 R2 M1 M2 L H L0.
  assert (0 <= hi)%R as H0.
  { destruct (Rle_lt_dec 0 hi) as [?|N]; auto. assert (hi * c <= 0)%R by (replace 0%R with (0 * c)%R by ring; apply Rmult_le_compat_r; lra). 
    destruct (Req_dec (b2r x) 0) as [Z|Z]; [|lra]. assert (hi * c < 0)%R; [|lra]. replace 0%R with (0 * c)%R by ring. apply Rmult_lt_compat_r; lra. }
  assert (lo <= b2r x / b2r y <= hi)%R as P.
  { split; apply Rmult_le_reg_r with (b2r y); try lra; unfold Rdiv; rewrite Rmult_assoc, Rinv_l, Rmult_1_r by lra.
    - apply Rle_trans with (lo * d)%R; [apply Rmult_le_compat_l; lra|lra].
    - apply Rle_trans with (hi * c)%R; [lra|apply Rmult_le_compat_l; lra]. }
  destruct (fdiv_spec x y Fx) as (E & F); [lra|apply big127; apply Rabs_le; lra|].
  split; auto. rewrite E. apply iv_rnd; auto; lra.
Qed.
Lemma iv_Z : forall z lo hi, Z.abs z <= 16777216 -> (lo <= IZR z <= hi)%R -> iv lo (f_of_Z z) hi.
Proof. intros z lo hi Hz H. destruct (f_of_Z_exact z Hz) as (E & F). split; auto. rewrite E. exact H. Qed.

(** constants, by computation *)
Definition const_test (a b : Z) (x : f32) : bool := is_finite x && fle (f_of_Z a) x && fle x (f_of_Z b).
Lemma const_iv : forall a b x, Z.abs a <= 16777216 -> Z.abs b <= 16777216 -> const_test a b x = true -> iv (IZR a) x (IZR b).
Proof.
  intros a b x Ha Hb H. unfold const_test in H. apply andb_prop in H. destruct H as (H & H2). apply andb_prop in H. destruct H as (F & H1).
  destruct (f_of_Z_exact a Ha) as (Ea & Fa). destruct (f_of_Z_exact b Hb) as (Eb & Fb).
  rewrite fle_spec, Ea in H1 by auto. rewrite fle_spec, Eb in H2 by auto.
  split; [exact F|]. split; [destruct (Rle_bool_spec (IZR a) (b2r x)); [lra|discriminate]|destruct (Rle_bool_spec (b2r x) (IZR b)); [lra|discriminate]].
Qed.
Ltac cst := apply const_iv; [lia|lia|vm_compute; reflexivity].
Ltac cv := repeat split; (unfold mid; lra) || rp || lra || auto.

(** ** The bits of a float *)
Lemma of_bits_val : forall i, 8388608 <= i < 253 * 8388608 ->
  exists m, 8388608 <= m < 16777216 /\ i = (i / 8388608) * 8388608 + (m - 8388608) /\
    fin (of_bits i) /\ b2r (of_bits i) = (IZR m * bpow radix2 (i / 8388608 - 150))%R.
Proof.
  intros i Hi. pose proof (Z.div_mod i 8388608 ltac:(lia)) as D. pose proof (Z.mod_pos_bound i 8388608 ltac:(lia)) as M.
  assert (1 <= i / 8388608 < 253) as E by (split; [apply Z.div_le_lower_bound; lia|apply Z.div_lt_upper_bound; lia]).
  exists (i mod 8388608 + 8388608). split; [lia|]. split; [lia|]. unfold of_bits. cbv zeta.
  destruct (Z.leb_spec 2147483648 i); [lia|]. rewrite Z.mod_small by lia.
  destruct (Z.eqb_spec (i / 8388608) 255); [lia|]. destruct (Z.eqb_spec (i / 8388608) 0); [lia|].
  set (m := i mod 8388608) in *. set (e := i / 8388608) in *. cbn [cond_Zopp].
  assert (rep32 (IZR (m + 8388608) * bpow radix2 (e - 150))) as R by (apply rep32_scaled; lia).
  destruct (norm_spec 24 128 prec24 emax24 (m + 8388608) (e - 150) false) as (A & B).
  - unfold F2R. cbn [Fnum Fexp]. rewrite Rabs_mult, (Rabs_pos_eq (bpow _ _)) by apply bpow_ge_0.
    apply Rle_trans with (bpow radix2 24 * bpow radix2 (e - 150))%R.
    + apply Rmult_le_compat_r; [apply bpow_ge_0|]. rewrite Rabs_pos_eq by (apply IZR_le; lia). change (bpow radix2 24) with (IZR 16777216). apply IZR_le. lia.
    + rewrite <- bpow_plus. apply bpow_le. lia.
  - split; [exact B|]. rewrite A. unfold F2R. cbn [Fnum Fexp]. apply rnd32_id. exact R.
Qed.

Lemma of_bits_iv : forall i a b, 1 <= a -> b < 253 -> a * 8388608 <= i <= b * 8388608 ->
  fin (of_bits i) /\ (bpow radix2 (a - 127) <= b2r (of_bits i) <= bpow radix2 (b - 126))%R.
Proof.
  intros i a b Ha Hb Hi. destruct (of_bits_val i) as (m & Hm & _ & F & E); [lia|]. split; [exact F|]. rewrite E.
  assert (a <= i / 8388608 <= b) as D by (split; [apply Z.div_le_lower_bound; lia|]; apply Z.lt_succ_r, Z.div_lt_upper_bound; lia).
  split.
  - apply Rle_trans with (bpow radix2 23 * bpow radix2 (i / 8388608 - 150))%R.
    + rewrite <- bpow_plus. apply bpow_le. lia.
    + apply Rmult_le_compat_r; [apply bpow_ge_0|]. change (bpow radix2 23) with (IZR 8388608). apply IZR_le. lia.
  - apply Rle_trans with (bpow radix2 24 * bpow radix2 (i / 8388608 - 150))%R.
    + apply Rmult_le_compat_r; [apply bpow_ge_0|]. change (bpow radix2 24) with (IZR 16777216). apply IZR_le. lia.
    + rewrite <- bpow_plus. apply bpow_le. lia.
Qed.

Lemma normal_mantissa : forall m e, SpecFloat.bounded 24 128 m e = true -> -149 < e -> 8388608 <= Zpos m < 16777216.
Proof.
  intros m e B He. apply andb_prop in B. destruct B as (C & _). unfold SpecFloat.canonical_mantissa in C. apply Zeq_bool_eq in C.
  unfold SpecFloat.fexp, SpecFloat.emin in C. rewrite Digits.Zpos_digits2_pos in C.
  assert (Digits.Zdigits radix2 (Zpos m) = 24) as D by lia.
  pose proof (Digits.Zdigits_correct radix2 (Zpos m)) as K. rewrite D in K. cbn in K. lia.
Qed.

Lemma bits_range : forall (x : f32) a b, fin x -> -100 <= a -> b <= 100 -> (bpow radix2 a <= b2r x <= bpow radix2 b)%R ->
  (a + 127) * 8388608 <= bits_of x < (b + 128) * 8388608.
Proof.
  intros x a b F Ha Hb (L & H). pose proof (bpow_gt_0 radix2 a) as P.
  destruct x as [s|s| |s m e Bd]; try discriminate.
  - cbn [b2r] in L. simpl in L. lra.
  - destruct s.
    { exfalso. unfold B2R in L. assert (F2R (Float radix2 (cond_Zopp true (Zpos m)) e) < 0)%R; [|lra]. apply F2R_lt_0. reflexivity. }
    unfold B2R in L, H. cbn [cond_Zopp] in L, H.
    assert (-149 < e) as He.
    { destruct (Z_lt_le_dec (-149) e) as [?|N]; auto. exfalso.
      assert (Zpos m < 16777216) as Hm.
      { pose proof Bd as C. apply andb_prop in C. destruct C as (C & _). unfold SpecFloat.canonical_mantissa in C. apply Zeq_bool_eq in C.
        unfold SpecFloat.fexp, SpecFloat.emin in C. rewrite Digits.Zpos_digits2_pos in C.
        pose proof (Digits.Zdigits_correct radix2 (Zpos m)) as (_ & K). rewrite Z.abs_eq in K by lia.
        assert (Digits.Zdigits radix2 (Zpos m) <= 24) as D by lia. eapply Z.lt_le_trans; [exact K|].
        change 16777216 with (radix2 ^ 24). apply Z.pow_le_mono_r; [reflexivity|exact D]. }
      assert (F2R (Float radix2 (Zpos m) e) < bpow radix2 a)%R; [|lra].
      unfold F2R. cbn [Fnum Fexp]. apply Rlt_le_trans with (bpow radix2 24 * bpow radix2 e)%R.
      - apply Rmult_lt_compat_r; [apply bpow_gt_0|]. change (bpow radix2 24) with (IZR 16777216). apply IZR_lt. exact Hm.
      - rewrite <- bpow_plus. apply bpow_le. lia. }
    pose proof (normal_mantissa m e Bd He) as Hm.
    unfold F2R in L, H. cbn [Fnum Fexp] in L, H.
    assert (a < e + 24) as A1.
    { apply (lt_bpow radix2). eapply Rle_lt_trans; [exact L|]. replace (bpow radix2 (e + 24)) with (bpow radix2 24 * bpow radix2 e)%R by (rewrite <- bpow_plus; f_equal; lia).
      apply Rmult_lt_compat_r; [apply bpow_gt_0|]. change (bpow radix2 24) with (IZR 16777216). apply IZR_lt. lia. }
    assert (e + 23 <= b) as A2.
    { apply (le_bpow radix2). eapply Rle_trans; [|exact H]. replace (bpow radix2 (e + 23)) with (bpow radix2 23 * bpow radix2 e)%R by (rewrite <- bpow_plus; f_equal; lia).
      apply Rmult_le_compat_r; [apply bpow_ge_0|]. change (bpow radix2 23) with (IZR 8388608). apply IZR_le. lia. }
    unfold bits_of, sign_bit. destruct (Z.ltb_spec (Zpos m) 8388608); [lia|]. lia.
Qed.

Local Transparent f_of_Z.
Lemma big_Z : forall i, 0 <= i <= 2147483648 -> (0 <= IZR i <= 2147483648)%R -> b2r (f_of_Z i) = rnd32 (IZR i) /\ fin (f_of_Z i).
Proof.
  intros i Hi Hr. assert (F2R (Float radix2 i 0) = IZR i) as E by (unfold F2R; simpl; ring).
  destruct (norm_spec 24 128 prec24 emax24 i 0 false) as (A & B).
  - rewrite E. apply big127. apply Rabs_le. lra.
  - unfold f_of_Z. split; [|exact B]. rewrite A, E. reflexivity.
Qed.

Local Opaque f_of_Z.

(** ** The logarithm and the power *)
Lemma log_range : forall x, iv (/ 4096) x 1048576 -> iv (-16) (fastlog2 x) 24.
Proof.
  intros x (F & H).
  assert (115 * 8388608 <= bits_of x < 148 * 8388608) as B.
  { apply (bits_range x (-12) 20 F); [lia|lia|]. change (bpow radix2 (-12)) with (/ 4096)%R. change (bpow radix2 20) with 1048576%R. exact H. }
  unfold fastlog2. cbv zeta. set (i := bits_of x) in *. clearbody i. clear F H x.
  pose proof (Z.mod_pos_bound i 8388608 ltac:(lia)) as M.
  assert (iv (/ 2) (of_bits (i mod 8388608 + 1056964608)) 1) as Mx.
  { destruct (of_bits_val (i mod 8388608 + 1056964608)) as (m & Hm & Em & Fm & Vm); [lia|].
    assert ((i mod 8388608 + 1056964608) / 8388608 = 126) as D by (symmetry; apply Z.div_unique with (i mod 8388608); lia).
    rewrite D in Vm. split; [exact Fm|]. rewrite Vm. change (bpow radix2 (126 - 150)) with (/ 16777216)%R.
    assert (IZR 8388608 <= IZR m <= IZR 16777216)%R as K by (split; apply IZR_le; lia). lra. }
  assert (iv 115 (fmul (f_of_Z i) (flit 1 8388608)) 148) as Y.
  { assert (IZR (115 * 8388608) <= IZR i <= IZR (148 * 8388608))%R as K by (split; apply IZR_le; lia). rewrite !mult_IZR in K.
    destruct (big_Z i) as (Ei & Fi); [lia|lra|].
    assert (iv (115 * 8388608) (f_of_Z i) (148 * 8388608)) as I.
    { split; [exact Fi|]. rewrite Ei. apply iv_rnd; [| |exact K].
      - change (115 * 8388608)%R with (IZR 115 * bpow radix2 23)%R. apply rep32_scaled; lia.
      - change (148 * 8388608)%R with (IZR 148 * bpow radix2 23)%R. apply rep32_scaled; lia. }
    assert (b2r (flit 1 8388608) = / 8388608 /\ fin (flit 1 8388608))%R as (Ev & Fv).
    { assert (B2SF (flit 1 8388608) = SpecFloat.S754_finite false 8388608 (-46)) as E by (vm_compute; reflexivity). split.
      - rewrite <- (SF2R_B2SF 24 128), E. unfold SF2R, F2R. cbn [Fnum Fexp Zaux.cond_Zopp].
        change (bpow radix2 (-46)) with (/ 70368744177664)%R. lra.
      - unfold fin. rewrite <- is_finite_SF_B2SF, E. reflexivity. }
    apply (iv_mul _ _ (115 * 8388608) _ (148 * 8388608) (/ 8388608) _ (/ 8388608)); [exact I|split; [exact Fv|rewrite Ev; lra]|..]; cv. }
  assert (iv 124 (flong 12422551499 100000000) 125) as C1 by cst.
  assert (iv 1 (flong 1498030302 1000000000) 2) as C2 by cst.
  assert (iv 1 (flong 172587999 100000000) 2) as C3 by cst.
  assert (iv 0 (flong 3520887068 10000000000) 1) as C4 by cst.
  assert (iv (-10) (fsub (fmul (f_of_Z i) (flit 1 8388608)) (flong 12422551499 100000000)) 24) as D1 by (eapply iv_sub; [exact Y|exact C1|..]; cv).
  assert (iv 0 (fmul (flong 1498030302 1000000000) (of_bits (i mod 8388608 + 1056964608))) 2) as D2 by (eapply iv_mul; [exact C2|exact Mx|..]; cv).
  assert (iv (/ 2) (fadd (flong 3520887068 10000000000) (of_bits (i mod 8388608 + 1056964608))) 2) as D3 by (eapply iv_add; [exact C4|exact Mx|..]; cv).
  assert (iv 0 (fdiv (flong 172587999 100000000) (fadd (flong 3520887068 10000000000) (of_bits (i mod 8388608 + 1056964608)))) 4) as D4 by (eapply iv_div; [exact C3|exact D3|..]; cv).
  assert (iv (-12) (fsub (fsub (fmul (f_of_Z i) (flit 1 8388608)) (flong 12422551499 100000000)) (fmul (flong 1498030302 1000000000) (of_bits (i mod 8388608 + 1056964608)))) 24) as D5
    by (eapply iv_sub; [exact D1|exact D2|..]; cv).
  eapply iv_sub; [exact D5|exact D4|..]; cv.
Qed.

Lemma pow2_range : forall p, iv (-16) p 24 -> exists v, fastpow2 p = Ok v /\ fin v /\ (0 < b2r v <= bpow radix2 30)%R.
Proof.
  intros p (F & H). unfold fastpow2. destruct (f_of_Z_exact 0 ltac:(lia)) as (E0 & F0). destruct (f_of_Z_exact (-126) ltac:(lia)) as (E126 & F126).
  rewrite (flt_spec p (f_of_Z (-126))), E126 by auto. rewrite Rlt_bool_false by lra.
  rewrite (flt_spec p (f_of_Z 0)), E0 by auto.
  assert (-17 <= Ztrunc (b2r p) <= 25) as W by (apply Ztrunc_between; lra || lia).
  unfold f_to_int. rewrite f_to_Z_ok by (auto; unfold INT_MIN, INT_MAX; lia). cbn [obind].
  set (w := Ztrunc (b2r p)) in *. destruct (f_of_Z_exact w) as (Ew & Fw); [lia|].
  set (z := fadd (fsub p (f_of_Z w)) (if Rlt_bool (b2r p) 0 then f1 else f_of_Z 0)).
  assert (iv 0 z 1) as Hz.
  { destruct f1_val as (V1 & F1). destruct (Rlt_bool_spec (b2r p) 0) as [N|N].
    - assert (-1 <= b2r p - IZR w <= 0)%R as K.
      { unfold w. rewrite Ztrunc_ceil by lra. pose proof (Zceil_ub (b2r p)). pose proof (Zceil_lb (b2r p)). lra. }
      assert (iv (-1) (fsub p (f_of_Z w)) 0) as S.
      { destruct (fsub_spec p (f_of_Z w) F Fw) as (E & Fs); [apply big127; rewrite Ew; apply Rabs_le; lra|]. split; [exact Fs|]. rewrite E, Ew. apply iv_rnd; cv. }
      eapply iv_add; [exact S|split; [exact F1|rewrite V1; apply conj; apply Rle_refl]|..]; cv.
    - assert (0 <= b2r p - IZR w <= 1)%R as K.
      { unfold w. rewrite Ztrunc_floor by lra. pose proof (Zfloor_ub (b2r p)). pose proof (Zfloor_lb (b2r p)). lra. }
      assert (iv 0 (fsub p (f_of_Z w)) 1) as S.
      { destruct (fsub_spec p (f_of_Z w) F Fw) as (E & Fs); [apply big127; rewrite Ew; apply Rabs_le; lra|]. split; [exact Fs|]. rewrite E, Ew. apply iv_rnd; cv. }
      eapply iv_add; [exact S|split; [exact F0|rewrite E0; apply conj; apply Rle_refl]|..]; cv. }
  clearbody z. clear w W Ew Fw.
  assert (iv 121 (flong 1212740575 10000000) 122) as C1 by cst.
  assert (iv 27 (flong 277280233 10000000) 28) as C2 by cst.
  assert (iv 4 (flong 484252568 100000000) 5) as C3 by cst.
  assert (iv 1 (flong 149012907 100000000) 2) as C4 by cst.
  assert (iv 105 (fadd p (flong 1212740575 10000000)) 146) as D1 by (eapply iv_add; [split; [exact F|exact H]|exact C1|..]; cv).
  assert (iv 3 (fsub (flong 484252568 100000000) z) 5) as D2 by (eapply iv_sub; [exact C3|exact Hz|..]; cv).
  assert (iv 5 (fdiv (flong 277280233 10000000) (fsub (flong 484252568 100000000) z)) 10) as D3 by (eapply iv_div; [exact C2|exact D2|..]; cv).
  assert (iv 0 (fmul (flong 149012907 100000000) z) 2) as D4 by (eapply iv_mul; [exact C4|exact Hz|..]; cv).
  set (s := fsub (fadd (fadd p (flong 1212740575 10000000)) (fdiv (flong 277280233 10000000) (fsub (flong 484252568 100000000) z))) (fmul (flong 149012907 100000000) z)).
  assert (iv 108 s 156) as D5.
  { eapply iv_sub; [eapply (iv_add 110 156); [exact D1|exact D3|..]; cv|exact D4|..]; cv. }
  clearbody s. clear D1 D2 D3 D4 C1 C2 C3 C4 z Hz.
  assert (iv (108 * 8388608) (fmul (f_of_Z 8388608) s) (156 * 8388608)) as D6.
  { apply (iv_mul _ _ 8388608 _ 8388608 108 _ 156); [apply iv_Z; [lia|lra]|exact D5|lra|lra| | |unfold mid; lra|unfold mid; lra|lra|lra].
    - change (108 * 8388608)%R with (IZR 108 * bpow radix2 23)%R. apply rep32_scaled; lia.
    - change (156 * 8388608)%R with (IZR 156 * bpow radix2 23)%R. apply rep32_scaled; lia. }
  destruct D6 as (F6 & H6). unfold f_to_u32.
  assert (108 * 8388608 <= Ztrunc (b2r (fmul (f_of_Z 8388608) s)) <= 156 * 8388608) as T.
  { split.
    - rewrite <- (Ztrunc_IZR (108 * 8388608)). apply Ztrunc_le. rewrite mult_IZR. lra.
    - rewrite <- (Ztrunc_IZR (156 * 8388608)). apply Ztrunc_le. rewrite mult_IZR. lra. }
  rewrite f_to_Z_ok by (auto; lia). cbn [obind]. eexists. split; [reflexivity|].
  destruct (of_bits_iv _ 108 156 ltac:(lia) ltac:(lia) T) as (Fv & Hv). split; [exact Fv|].
  pose proof (bpow_gt_0 radix2 (108 - 127)). change (156 - 126) with 30 in Hv. lra.
Qed.

(** a share between 0 and 1 of a logarithm *)
Lemma share_mul : forall f x, iv 0 f 1 -> iv (-16) x 24 -> iv (-16) (fmul f x) 24.
Proof.
  intros f x (Ff & Hf) (Fx & Hx).
  assert (-16 <= b2r f * b2r x <= 24)%R as P.
  { destruct (Rle_lt_dec 0 (b2r x)).
    - assert (0 <= b2r f * b2r x <= 1 * b2r x)%R by (split; [apply Rmult_le_pos; lra|apply Rmult_le_compat_r; lra]). lra.
    - assert (0 <= b2r f * - b2r x <= 1 * - b2r x)%R by (split; [apply Rmult_le_pos; lra|apply Rmult_le_compat_r; lra]). lra. }
  destruct (fmul_spec f x Ff Fx) as (E & F); [apply big127; apply Rabs_le; lra|]. split; [exact F|]. rewrite E. apply iv_rnd; cv.
Qed.
Lemma pow_range : forall x f, iv (/ 4096) x 1048576 -> iv 0 f 1 -> exists v, fastpow x f = Ok v /\ bd v 30.
Proof.
  intros x f Hx Hf. unfold fastpow. destruct (pow2_range (fmul f (fastlog2 x))) as (v & E & F & H).
  - apply share_mul; auto. apply log_range. exact Hx.
  - exists v. split; [exact E|]. split; [exact F|]. rewrite Rabs_pos_eq; lra.
Qed.

Lemma mix_bands_ok : forall l fa fb, iv 0 fa 1 -> iv 0 fb 1 ->
  Forall (fun p => iv (/ 4096) (fst p) 1048576 /\ iv (/ 4096) (snd p) 1048576) l ->
  exists r, mix_bands l fa fb = Ok r /\ length r = length l /\ Forall (fun x => bd x 60) r.
Proof.
  intros l fa fb Ha Hb. induction l as [|(a, b) l IH]; intros F.
  - exists []. cbn. auto.
  - inversion F as [|? ? (A & B) F']; subst. cbn [fst snd] in A, B. cbn [mix_bands].
    destruct (pow_range a fa A Ha) as (x & -> & Bx). destruct (pow_range b fb B Hb) as (y & -> & By). destruct (IH F') as (r & -> & L & Fr).
    cbn [obind]. eexists. split; [reflexivity|]. split; [cbn; lia|]. constructor; auto.
    apply (bd_mul x y 30 30); auto. lia.
Qed.

(** ** Colours and spectra *)
Lemma eps_val : fin (dlit 1 1000) /\ (/ 1024 <= b2r (dlit 1 1000) <= / 512)%R.
Proof.
  assert (B2SF (dlit 1 1000) = SpecFloat.S754_finite false 4611686018427388 (-62)) as E by (vm_compute; reflexivity). split.
  - unfold fin. rewrite <- is_finite_SF_B2SF, E. reflexivity.
  - rewrite <- (SF2R_B2SF 53 1024), E. unfold SF2R, F2R. cbn [Fnum Fexp Zaux.cond_Zopp].
    change (bpow radix2 (-62)) with (/ 4611686018427387904)%R. lra.
Qed.
Definition offset32 : f32 := f_of_d (dsub (d_of_Z 1) (dlit 1 1000)).
Lemma offset_val : iv (/ 2) offset32 1.
Proof.
  assert (B2SF offset32 = SpecFloat.S754_finite false 16760439 (-24)) as E by (vm_compute; reflexivity). split.
  - unfold fin. rewrite <- is_finite_SF_B2SF, E. reflexivity.
  - rewrite <- (SF2R_B2SF 24 128), E. unfold SF2R, F2R. cbn [Fnum Fexp Zaux.cond_Zopp].
    change (bpow radix2 (-24)) with (/ 16777216)%R. lra.
Qed.

Lemma rep64_dy : forall n k, Z.abs n <= 9007199254740992 -> 0 <= k <= 100 -> rep64 (IZR n * / IZR (2 ^ k)).
Proof.
  intros n k Hn Hk. replace (/ IZR (2 ^ k))%R with (bpow radix2 (- k)); [apply rep64_scaled; lia|].
  rewrite bpow_opp, bpow_Z by lia. reflexivity.
Qed.
Lemma big1023 : forall x : R, (Rabs x <= bpow radix2 127)%R -> (Rabs x <= bpow radix2 1023)%R.
Proof. intros x H. eapply Rle_trans; [exact H|]. apply bpow_le. lia. Qed.

(** one component, lifted off zero *)
Definition lift32 (c : f32) : f32 := f_of_d (dadd (d_of_f (fmul c offset32)) (dlit 1 1000)).
Lemma lift_range : forall c, iv 0 c 65535 -> iv (/ 1024) (lift32 c) 65536.
Proof.
  intros c Hc. unfold lift32. destruct eps_val as (Fe & He).
  assert (iv 0 (fmul c offset32) 65535) as (Fm & Hm) by (eapply iv_mul; [exact Hc|exact offset_val|..]; cv).
  destruct (d_of_f_exact _ Fm) as (Ed & Fd).
  destruct (dadd_spec (d_of_f (fmul c offset32)) (dlit 1 1000) Fd Fe) as (Ea & Fa).
  { apply big1023, big127. rewrite Ed. apply Rabs_le. lra. }
  assert (/ 1024 <= b2r (dadd (d_of_f (fmul c offset32)) (dlit 1 1000)) <= 65536)%R as Ha.
  { rewrite Ea, Ed. split; [apply rnd64_ge_r; [|lra]|apply rnd64_le_r; [apply rep64_IZR; lia|lra]].
    replace (/ 1024)%R with (1 * / IZR (2 ^ 10))%R by (simpl; lra). apply (rep64_dy 1 10); lia. }
  destruct (f_of_d_spec _ Fa) as (E & F).
  { apply big127. apply Rabs_le. lra. }
  split; [exact F|]. rewrite E. apply iv_rnd; cv.
Qed.

Definition triple_ok (p : f32 * (f32 * f32)) : bool :=
  const_test 0 1 (fst p) && const_test 0 1 (fst (snd p)) && const_test 0 1 (snd (snd p)) &&
  (fle (flit 1 2) (fst p) || fle (flit 1 2) (fst (snd p)) || fle (flit 1 2) (snd (snd p))).
Lemma triples_ok : forallb triple_ok (combine (spectral_r_small mix64) (combine (spectral_g_small mix64) (spectral_b_small mix64))) = true.
Proof. vm_compute. reflexivity. Qed.

Definition band32 (r g b : f32) (p : f32 * (f32 * f32)) : f32 :=
  fadd (f_of_Z 0) (fadd (fadd (fmul (fst p) r) (fmul (fst (snd p)) g)) (fmul (snd (snd p)) b)).
Lemma half_lit : b2r (flit 1 2) = (/ 2)%R /\ fin (flit 1 2).
Proof. exact fhalf_val. Qed.
Lemma fle_half : forall x, fin x -> fle (flit 1 2) x = true -> (/ 2 <= b2r x)%R.
Proof.
  intros x F H. destruct half_lit as (Eh & Fh). rewrite fle_spec, Eh in H by auto.
  destruct (Rle_bool_spec (/ 2) (b2r x)); [lra|discriminate].
Qed.
Lemma band_range : forall r g b p, triple_ok p = true -> iv (/ 1024) r 65536 -> iv (/ 1024) g 65536 -> iv (/ 1024) b 65536 ->
  iv (/ 4096) (band32 r g b p) 1048576.
Proof.
  intros r g b (pr, (pg, pb)) T Hr Hg Hb. unfold triple_ok in T. cbn [fst snd] in T. unfold band32. cbn [fst snd].
  apply andb_prop in T. destruct T as (T & T4). apply andb_prop in T. destruct T as (T & T3). apply andb_prop in T. destruct T as (T1 & T2).
  apply (const_iv 0 1) in T1; [|lia|lia]. apply (const_iv 0 1) in T2; [|lia|lia]. apply (const_iv 0 1) in T3; [|lia|lia].
  assert (exists cr cg cb : R, (0 <= cr)%R /\ (0 <= cg)%R /\ (0 <= cb)%R /\ rep32 cr /\ rep32 cg /\ rep32 cb /\ rep32 (cr + cg)%R /\
    (/ 2048 <= cr + cg + cb)%R /\ (cr <= 1)%R /\ (cg <= 1)%R /\ (cb <= 1)%R /\
    iv cr (fmul pr r) 65536 /\ iv cg (fmul pg g) 65536 /\ iv cb (fmul pb b) 65536) as (cr & cg & cb & P1 & P2 & P3 & R1 & R2 & R3 & R4 & S & U1 & U2 & U3 & I1 & I2 & I3).
  { assert (rep32 0) as Z0 by (apply rep32_IZR; lia).
    assert (rep32 (/ 2048)) as Zh by rp.
    assert (forall x y, iv 0 x 1 -> iv (/ 1024) y 65536 -> iv 0 (fmul x y) 65536) as K0 by (intros x y A B; eapply iv_mul; [exact A|exact B|..]; cv).
    assert (forall x y, iv 0 x 1 -> iv (/ 1024) y 65536 -> (/ 2 <= b2r x)%R -> iv (/ 2048) (fmul x y) 65536) as K1.
    { intros x y (A & A') B C. assert (iv (/ 2) x 1) as A2 by (split; [exact A|lra]). eapply iv_mul; [exact A2|exact B|..]; cv. }
    apply orb_prop in T4. destruct T4 as [T4|T4]; [apply orb_prop in T4; destruct T4 as [T4|T4]|].
    - exists (/ 2048)%R, 0%R, 0%R. rewrite Rplus_0_r. assert (/ 2 <= b2r pr)%R by (apply fle_half; [apply T1|exact T4]). repeat split; try lra; auto; apply K0 || apply K1; auto.
    - exists 0%R, (/ 2048)%R, 0%R. rewrite Rplus_0_l. assert (/ 2 <= b2r pg)%R by (apply fle_half; [apply T2|exact T4]). repeat split; try lra; auto; apply K0 || apply K1; auto.
    - exists 0%R, 0%R, (/ 2048)%R. rewrite Rplus_0_l. assert (/ 2 <= b2r pb)%R by (apply fle_half; [apply T3|exact T4]). repeat split; try lra; auto; apply K0 || apply K1; auto. }
  assert (iv (cr + cg) (fadd (fmul pr r) (fmul pg g)) 131072) as J1.
  { eapply iv_add; [exact I1|exact I2|..]; cv. }
  assert (iv (/ 2048) (fadd (fadd (fmul pr r) (fmul pg g)) (fmul pb b)) 262144) as J2.
  { eapply iv_add; [exact J1|exact I3|..]; cv. }
  apply (iv_weak (/ 2048) _ 262144); [|lra|lra]. eapply iv_add; [apply (iv_Z 0 0 0); [lia|lra]|exact J2|..]; cv.
Qed.

Lemma spectral_is : forall r g b : f32, rgb_to_spectral mix64 r g b =
  map (band32 (lift32 r) (lift32 g) (lift32 b)) (combine (spectral_r_small mix64) (combine (spectral_g_small mix64) (spectral_b_small mix64))).
Proof. intros r g b. unfold rgb_to_spectral. cbv zeta. apply map_ext. intros (pr, (pg, pb)). reflexivity. Qed.

Lemma spectral_range : forall r g b : f32, iv 0 r 65535 -> iv 0 g 65535 -> iv 0 b 65535 ->
  Forall (fun x : f32 => iv (/ 4096) x 1048576) (rgb_to_spectral mix64 r g b) /\ length (rgb_to_spectral mix64 r g b) = 10%nat.
Proof.
  intros r g b Hr Hg Hb. rewrite spectral_is. split; [|rewrite map_length; reflexivity].
  apply Forall_forall. intros x I. apply in_map_iff in I. destruct I as (p & <- & I).
  apply band_range; auto using lift_range. pose proof triples_ok as T. rewrite forallb_forall in T. apply T. exact I.
Qed.

(** back to a colour *)
Definition coef_ok (l : list f32) : bool := Nat.eqb (length l) 10 && forallb (const_test (-1) 1) l.
Lemma coefs_ok : coef_ok (T_matrix_r mix64) = true /\ coef_ok (T_matrix_g mix64) = true /\ coef_ok (T_matrix_b mix64) = true.
Proof. repeat split; vm_compute; reflexivity. Qed.

Lemma dot_fold : forall (l : list (f32 * f32)) acc k, bd acc (60 + k) -> 0 <= k -> k + Z.of_nat (length l) <= 60 ->
  Forall (fun p => bd (fst p) 0 /\ bd (snd p) 60) l ->
  bd (fold_left (fun acc p => fadd acc (fmul (fst p) (snd p))) l acc) (60 + k + Z.of_nat (length l)).
Proof.
  induction l as [|(c, x) l IH]; intros acc k Ba Hk Hl F.
  - cbn [fold_left length]. replace (60 + k + Z.of_nat 0) with (60 + k) by lia. exact Ba.
  - inversion F as [|? ? (Bc & Bx) F']; subst. cbn [fst snd] in *. cbn [fold_left fst snd]. cbn [length] in *.
    replace (60 + k + Z.of_nat (S (length l))) with (60 + (k + 1) + Z.of_nat (length l)) by lia.
    apply IH; auto; try lia. replace (60 + (k + 1)) with (60 + k + 1) by lia. apply bd_add; auto; [|lia].
    apply bd_weak with (0 + 60); [|lia]. apply bd_mul; auto. lia.
Qed.

Lemma dot_range : forall m sp : list f32, coef_ok m = true -> length sp = 10%nat -> Forall (fun x => bd x 60) sp -> bd (dot mix64 m sp : f32) 70.
Proof.
  intros m sp C L F. unfold coef_ok in C. apply andb_prop in C. destruct C as (Lm & C). apply Nat.eqb_eq in Lm.
  unfold dot. cbn [mix64 sng num32 nadd nmul nofZ car]. 
  change (bd (fold_left (fun acc p => fadd acc (fmul (fst p) (snd p))) (combine m sp) (f_of_Z 0)) 70).
  replace 70 with (60 + 0 + Z.of_nat (length (combine m sp))) by (rewrite combine_length, L, Lm; reflexivity).
  apply dot_fold; try lia.
  - apply bd_weak with 0; [apply bd_of_Z; lia|lia].
  - rewrite combine_length, L, Lm. cbn. lia.
  - apply Forall_forall. intros (c, x) I. cbn [fst snd]. split.
    + apply in_combine_l in I. rewrite forallb_forall in C. apply C in I. apply (const_iv (-1) 1) in I; [|lia|lia]. destruct I as (Fc & Hc).
      split; [exact Fc|]. change (bpow radix2 0) with 1%R. apply Rabs_le. exact Hc.
    + apply in_combine_r in I. rewrite Forall_forall in F. apply F. exact I.
Qed.

Lemma out_range : forall t : f32, bd t 70 -> iv 0 (clamp01d mix64 (ddiv (dsub (d_of_f t) (dlit 1 1000)) (d_of_f offset32))) 1.
Proof.
  intros t (Ft & Ht). destruct (d_of_f_exact t Ft) as (Et & Fd). destruct eps_val as (Fe & He).
  destruct offset_val as (Fo & Ho). destruct (d_of_f_exact _ Fo) as (Eo & Fdo).
  assert (Rabs (b2r (d_of_f t) - b2r (dlit 1 1000)) <= bpow radix2 71)%R as B1.
  { rewrite Et. change 71 with (70 + 1). rewrite bpow_S. assert (1 <= bpow radix2 70)%R by (change 1%R with (bpow radix2 0); apply bpow_le; lia).
    unfold Rminus. eapply Rle_trans; [apply Rabs_triang|]. rewrite Rabs_Ropp, (Rabs_pos_eq (b2r (dlit 1 1000))) by lra. lra. }
  destruct (dsub_spec (d_of_f t) (dlit 1 1000) Fd Fe) as (Es & Fs); [eapply Rle_trans; [exact B1|apply bpow_le; lia]|].
  set (u := dsub (d_of_f t) (dlit 1 1000)) in *.
  assert (Rabs (b2r u) <= bpow radix2 71)%R as Bu.
  { rewrite Es. apply Rabs_le_inv in B1. apply Rabs_le.
    assert (rep64 (bpow radix2 71)) as R by (replace (bpow radix2 71) with (IZR 1 * bpow radix2 71)%R by (simpl; ring); apply rep64_scaled; lia).
    split; [apply rnd64_ge_r; [apply generic_format_opp; exact R|lra]|apply rnd64_le_r; [exact R|lra]]. }
  clearbody u. clear Es B1.
  destruct (ddiv_spec u (d_of_f offset32) Fs) as (Eq & Fq).
  { rewrite Eo. lra. }
  { rewrite Eo. apply Rle_trans with (bpow radix2 72); [|apply bpow_le; lia].
    unfold Rdiv. rewrite Rabs_mult, Rabs_inv, (Rabs_pos_eq (b2r offset32)) by lra.
    change 72 with (71 + 1). rewrite bpow_S. rewrite Rmult_comm. apply Rmult_le_compat; [apply Rlt_le, Rinv_0_lt_compat; lra|apply Rabs_pos| |exact Bu].
    replace 2%R with (/ / 2)%R by (field). apply Rinv_le_contravar; lra. }
  set (q := ddiv u (d_of_f offset32)) in *. clearbody q. clear u Fs Bu Eq.
  unfold clamp01d. change (iv 0 (f_of_d (if dlt (d_of_Z 1) q then d_of_Z 1 else if dlt q (d_of_Z 0) then d_of_Z 0 else q)) 1).
  destruct (d_of_Z_exact 1 ltac:(lia)) as (V1 & F1). destruct (d_of_Z_exact 0 ltac:(lia)) as (V0 & F0).
  assert (forall d, fin d -> (0 <= b2r d <= 1)%R -> iv 0 (f_of_d d) 1) as K.
  { intros d Fd' Hd. destruct (f_of_d_spec d Fd') as (E & F); [apply big127; apply Rabs_le; lra|]. split; [exact F|]. rewrite E. apply iv_rnd; cv. }
  rewrite !dlt_spec, V1, V0 by auto. destruct (Rlt_bool_spec 1 (b2r q)) as [|H1]; [apply K; [auto|lra]|].
  destruct (Rlt_bool_spec (b2r q) 0) as [|H2]; [apply K; [auto|lra]|]. apply K; auto.
Qed.

Lemma to_rgb_range : forall sp : list f32, length sp = 10%nat -> Forall (fun x => bd x 60) sp ->
  exists x y z : f32, spectral_to_rgb mix64 sp = (x, y, z) /\ iv 0 x 1 /\ iv 0 y 1 /\ iv 0 z 1.
Proof.
  intros sp L F. destruct coefs_ok as (Cr & Cg & Cb). eexists _, _, _. split; [reflexivity|].
  split; [|split]; apply out_range; apply dot_range; auto.
Qed.

(** ** The share of the brush colour *)
Lemma fdiv_share : forall a b, 0 <= a <= b -> 1 <= b <= 65536 -> iv 0 (fdiv (f_of_Z a) (f_of_Z b)) 1.
Proof.
  intros a b Ha Hb. destruct (f_of_Z_exact a ltac:(lia)) as (Va & Fa). destruct (f_of_Z_exact b ltac:(lia)) as (Vb & Fb).
  assert (1 <= IZR b)%R as B1 by (apply IZR_le; lia). assert (0 <= IZR a <= IZR b)%R as A1 by (split; apply IZR_le; lia).
  assert (0 <= IZR a / IZR b <= 1)%R as Q.
  { split; [apply Rmult_le_pos; [lra|apply Rlt_le, Rinv_0_lt_compat; lra]|]. apply Rmult_le_reg_r with (IZR b); [lra|]. unfold Rdiv. rewrite Rmult_assoc, Rinv_l by lra. lra. }
  destruct (fdiv_spec (f_of_Z a) (f_of_Z b) Fa) as (E & F).
  - rewrite Vb. lra.
  - rewrite Va, Vb. apply big127. apply Rabs_le. lra.
  - split; [exact F|]. rewrite E, Va, Vb. apply iv_rnd; cv.
Qed.
Lemma compl_range : forall x, iv 0 x 1 -> iv 0 (f_of_d (dsub (d_of_Z 1) (d_of_f x))) 1.
Proof.
  intros x (Fx & Hx). destruct (d_of_f_exact x Fx) as (Ex & Fd). destruct (d_of_Z_exact 1 ltac:(lia)) as (V1 & F1).
  destruct (dsub_spec (d_of_Z 1) (d_of_f x) F1 Fd) as (Es & Fs).
  { apply big1023, big127. rewrite V1, Ex. apply Rabs_le. lra. }
  assert (0 <= b2r (dsub (d_of_Z 1) (d_of_f x)) <= 1)%R as B.
  { rewrite Es, V1, Ex. split; [apply rnd64_ge_r|apply rnd64_le_r]; try (apply rep64_IZR; lia); lra. }
  destruct (f_of_d_spec _ Fs) as (E & F); [apply big127; apply Rabs_le; lra|].
  split; [exact F|]. rewrite E. apply iv_rnd; cv.
Qed.

(** the mixing is defined whenever it does not divide by zero *)
Lemma mix_ok : forall col p oa ob ca, 0 <= cr col <= ONE -> 0 <= cg col <= ONE -> 0 <= cb col <= ONE ->
  0 <= pr p <= pa p -> 0 <= pg p <= pa p -> 0 <= pb p <= pa p -> 1 <= pa p <= ONE ->
  0 <= oa <= ONE -> 0 <= ob <= ONE -> 0 <= ca <= ONE -> 1 <= oa + ob * pa p / ONE ->
  exists x y z : f32, spectral_mix col p oa ob ca = Ok (x, y, z) /\ iv 0 x 1 /\ iv 0 y 1 /\ iv 0 z 1.
Proof.
  intros col p oa ob ca Cr Cg Cb Pr Pg Pb Pa Oa Ob Ca D. change ONE with 32768 in *.
  assert (0 <= ob * pa p / 32768 <= 32768) as Q by (split; [apply Z.div_pos; nia|apply Z.div_le_upper_bound; nia]).
  unfold spectral_mix. cbv zeta. change ONE with 32768.
  rewrite (u32_small (ob * pa p)) by nia. rewrite (u32_small (oa + _)) by lia.
  set (fa := fmul _ _).
  assert (iv 0 fa 1) as Fa by (eapply iv_mul; [apply fdiv_share; lia|apply (fdiv_share ca 32768); lia|..]; cv).
  pose proof (compl_range fa Fa) as Fb.
  assert (forall x, iv 0 x 1 -> iv 0 x 65535) as W by (intros x H; apply (iv_weak 0 x 1); auto; lra).
  match goal with |- context [combine ?a ?b] => set (sa := a); set (sb := b) end.
  assert (Forall (fun x : f32 => iv (/ 4096) x 1048576) sa /\ length sa = 10%nat) as (Sa & La)
    by (apply spectral_range; apply W, fdiv_share; lia).
  assert (Forall (fun x : f32 => iv (/ 4096) x 1048576) sb /\ length sb = 10%nat) as (Sb & Lb)
    by (apply spectral_range; apply W, fdiv_share; lia).
  destruct (mix_bands_ok (combine sa sb) fa (f_of_d (dsub (d_of_Z 1) (d_of_f fa))) Fa Fb) as (r & -> & Lr & Fr).
  { apply Forall_forall. intros (u, v) I. cbn [fst snd]. rewrite Forall_forall in Sa, Sb. split; [apply Sa; eapply in_combine_l; exact I|apply Sb; eapply in_combine_r; exact I]. }
  cbn [obind]. rewrite combine_length, La, Lb in Lr.
  destruct (to_rgb_range r Lr Fr) as (x & y & z & -> & Hx & Hy & Hz). exists x, y, z. auto.
Qed.

Lemma paint_mix_ok : forall col p oa ob ca, 0 <= cr col <= ONE -> 0 <= cg col <= ONE -> 0 <= cb col <= ONE ->
  0 <= pr p <= pa p -> 0 <= pg p <= pa p -> 0 <= pb p <= pa p -> 1 <= pa p <= ONE ->
  0 <= oa <= ONE -> 0 <= ob <= ONE -> 0 <= ca <= ONE -> 1 <= oa + ob * pa p / ONE ->
  exists x y z : f32, paint_mix col p oa ob ca = (x, y, z) /\ iv 0 x 1 /\ iv 0 y 1 /\ iv 0 z 1.
Proof.
  intros col p oa ob ca H1 H2 H3 H4 H5 H6 H7 H8 H9 H10 H11.
  destruct (mix_ok col p oa ob ca H1 H2 H3 H4 H5 H6 H7 H8 H9 H10 H11) as (x & y & z & E & R). exists x, y, z.
  unfold paint_mix. rewrite E. auto.
Qed.

(** ** Storing the result *)
Lemma dhalf_facts : b2r (dlit 1 2) = (/ 2)%R /\ fin (dlit 1 2).
Proof.
  assert (B2SF (dlit 1 2) = SpecFloat.S754_finite false 4503599627370496 (-53)) as E by (vm_compute; reflexivity). split.
    - rewrite <- (SF2R_B2SF 53 1024), E. unfold SF2R, F2R. cbn [Fnum Fexp Zaux.cond_Zopp].
      change (bpow radix2 (-53)) with (/ 9007199254740992)%R. lra.
    - unfold fin. rewrite <- is_finite_SF_B2SF, E. reflexivity.
Qed.
Lemma store_range : forall x a, iv 0 x 1 -> 0 <= a <= ONE -> exists v, paint_store x a = Ok v /\ 0 <= v <= a.
Proof.
  intros x a Hx Ha. change ONE with 32768 in *. unfold paint_store.
  assert (0 <= IZR a)%R as A0 by (apply IZR_le; lia).
  assert (IZR a <= 32768)%R as A1 by (apply IZR_le; lia).
  assert (iv 0 (fmul x (f_of_Z a)) (IZR a)) as (Fm & Hm).
  { destruct (f_of_Z_exact a ltac:(lia)) as (Va & Fa).
    eapply iv_mul; [exact Hx|split; [exact Fa|rewrite Va; split; apply Rle_refl]|..]; try lra; try (apply rep32_IZR; lia); unfold mid; lra. }
  destruct (d_of_f_exact _ Fm) as (Ed & Fd).
  destruct dhalf_facts as (Eh & Fh).
  destruct (dadd_spec _ _ Fd Fh) as (Ea & Fa).
  { apply big1023, big127. rewrite Ed, Eh. apply Rabs_le. lra. }
  set (s := dadd _ _) in *.
  assert (/ 2 <= b2r s <= IZR a + / 2)%R as B.
  { rewrite Ea, Ed, Eh. split; [apply rnd64_ge_r; [|lra]|apply rnd64_le_r; [|lra]].
    - replace (/ 2)%R with (1 * / IZR (2 ^ 1))%R by (simpl; lra). apply rep64_dy; lia.
    - replace (IZR a + / 2)%R with (IZR (2 * a + 1) * / IZR (2 ^ 1))%R by (rewrite plus_IZR, mult_IZR; simpl; lra). apply rep64_dy; lia. }
  assert (0 <= Ztrunc (b2r s) <= a) as T.
  { rewrite Ztrunc_floor by lra. split; [apply Zfloor_lub; simpl; lra|]. apply Z.lt_succ_r.
    apply lt_IZR. rewrite succ_IZR. eapply Rle_lt_trans; [apply Zfloor_lb|]. lra. }
  exists (Ztrunc (b2r s)). split; [apply d_to_Z_ok; [exact Fa|lia]|exact T].
Qed.

(** ** The eraser: part additive, part spectral *)
Lemma fabs_iv : forall x lo hi, iv lo x hi -> (- 8 <= lo)%R -> (hi <= 8)%R -> iv 0 (fabs x) 8.
Proof.
  intros x lo hi (F & H) A B. split.
  - unfold fin, fabs. rewrite is_finite_Babs. exact F.
  - unfold fabs. rewrite B2R_Babs. split; [apply Rabs_pos|]. apply Rabs_le. unfold b2r in *. lra.
Qed.
Lemma clamp_unit : forall x, fin x -> iv 0 (clampf x f0 f1) 1.
Proof.
  intros x F. destruct f0_val as (V0 & F0). destruct f1_val as (V1 & F1). unfold clampf. rewrite !flt_spec, V0, V1 by auto.
  destruct (Rlt_bool_spec 1 (b2r x)); [split; auto; lra|]. destruct (Rlt_bool_spec (b2r x) 0); split; auto; lra.
Qed.
Lemma factor_fin : forall x, iv 0 x 1 -> fin (spectral_blend_factor x).
Proof.
  intros x Hx. unfold spectral_blend_factor. cbv zeta.
  assert (iv 0 (fmul x (f_of_Z 8)) 8) as H1 by (eapply iv_mul; [exact Hx|apply (iv_Z 8 8 8); [lia|lra]|..]; cv).
  assert (iv (-3) (fsub (fmul x (f_of_Z 8)) (f_of_Z 3)) 5) as H2 by (eapply iv_sub; [exact H1|apply (iv_Z 3 3 3); [lia|lra]|..]; cv).
  set (b := fsub _ _) in *. clearbody b.
  assert (iv 0 (fabs b) 8) as H3 by (eapply fabs_iv; [exact H2|lra|lra]).
  assert (iv 1 (f_of_d (dlit 165 100)) 2) as H4 by (apply (const_iv 1 2); [lia|lia|vm_compute; reflexivity]).
  assert (iv 0 (fmul (fabs b) (f_of_d (dlit 165 100))) 16) as H5 by (eapply iv_mul; [exact H3|exact H4|..]; cv).
  assert (iv 1 (fadd f1 (fmul (fabs b) (f_of_d (dlit 165 100)))) 17) as H6 by (eapply iv_add; [apply (iv_Z 1 1 1); [lia|lra]|exact H5|..]; cv).
  set (w := fadd _ _) in *. clearbody w. destruct H2 as (Fb & Hb). destruct H6 as (Fw & Hw).
  assert (Rabs (b2r b / b2r w) <= 8)%R as Q.
  { unfold Rdiv. rewrite Rabs_mult, Rabs_inv, (Rabs_pos_eq (b2r w)) by lra.
    apply Rmult_le_reg_r with (b2r w); [lra|]. rewrite Rmult_assoc, Rinv_l by lra.
    assert (Rabs (b2r b) <= 8)%R by (apply Rabs_le; lra). lra. }
  destruct (fdiv_spec b w Fb) as (Eq & Fq); [lra|apply big127; lra|].
  assert (Rabs (b2r (fdiv b w)) <= 8)%R as Bq.
  { rewrite Eq. apply Rabs_le. apply Rabs_le_inv in Q. apply iv_rnd; [apply (rep32_IZR (-8)); lia|apply rep32_IZR; lia|exact Q]. }
  destruct (d_of_f_exact _ Fq) as (Ed & Fd).
  assert (b2r (dlit 1 2) = (/ 2)%R /\ fin (dlit 1 2)) as (Eh & Fh) by exact dhalf_facts.
  apply Rabs_le_inv in Bq.
  destruct (dadd_spec _ _ Fh Fd) as (Ea & Fa); [apply big1023, big127; rewrite Ed, Eh; apply Rabs_le; lra|].
  apply f_of_d_spec; [exact Fa|]. apply big127. rewrite Ea, Ed, Eh. apply Rabs_le.
  assert (-9 <= rnd64 (/ 2 + b2r (fdiv b w)) <= 9)%R; [|lra].
  split; [apply rnd64_ge_r|apply rnd64_le_r]; try lra; [apply (rep64_IZR (-9))|apply rep64_IZR]; lia.
Qed.

Lemma erase_range : forall sf s c o, iv 0 sf 1 -> iv 0 s 1 -> 0 <= c <= o -> o <= ONE ->
  let af := f_of_d (dsub (d_of_Z 1) (d_of_f sf)) in
  exists v, f_to_u32 (fadd (fmul af (f_of_Z c)) (fmul (fmul sf s) (f_of_Z o))) = Ok v /\ 0 <= v <= o.
Proof.
  intros sf s c o Hsf Hs Hc Ho af. change ONE with 32768 in *.
  pose proof (compl_range sf Hsf) as Haf. fold af in Haf.
  assert (b2r af <= 1 - b2r sf + / 8388608)%R as Sum.
  { destruct Hsf as (Fx & Hx). destruct (d_of_f_exact sf Fx) as (Ex & Fd). destruct (d_of_Z_exact 1 ltac:(lia)) as (V1 & F1).
    destruct (dsub_spec (d_of_Z 1) (d_of_f sf) F1 Fd) as (Es & Fs).
    { apply big1023, big127. rewrite V1, Ex. apply Rabs_le. lra. }
    rewrite V1, Ex in Es.
    assert (Rabs (1 - b2r sf) <= bpow radix2 0)%R as B0 by (change (bpow radix2 0) with 1%R; apply Rabs_le; lra).
    pose proof (rnd64_err _ 0 B0 ltac:(lia)) as Er. rewrite <- Es in Er.
    assert (0 <= b2r (dsub (d_of_Z 1) (d_of_f sf)) <= 1)%R as B.
    { rewrite Es. split; [apply rnd64_ge_r|apply rnd64_le_r]; try (apply rep64_IZR; lia); lra. }
    destruct (f_of_d_spec _ Fs) as (E & F); [apply big127; apply Rabs_le; lra|]. fold af in E.
    assert (Rabs (b2r (dsub (d_of_Z 1) (d_of_f sf))) <= bpow radix2 0)%R as B0' by (change (bpow radix2 0) with 1%R; apply Rabs_le; lra).
    pose proof (rnd32_err _ 0 B0' ltac:(lia)) as Er2. rewrite <- E in Er2.
    apply Rabs_le_inv in Er. apply Rabs_le_inv in Er2.
    assert (bpow radix2 (0 - 54) <= / 16777216)%R by (apply Rle_trans with (bpow radix2 (-24)); [apply bpow_le; lia|change (bpow radix2 (-24)) with (/ 16777216)%R; lra]).
    assert (bpow radix2 (0 - 25) <= / 16777216)%R by (apply Rle_trans with (bpow radix2 (-24)); [apply bpow_le; lia|change (bpow radix2 (-24)) with (/ 16777216)%R; lra]).
    lra. }
  clearbody af. 
  destruct (f_of_Z_exact c ltac:(lia)) as (Vc & Fc). destruct (f_of_Z_exact o ltac:(lia)) as (Vo & Fo).
  assert (0 <= IZR c <= IZR o)%R as C1 by (split; apply IZR_le; lia). assert (IZR o <= 32768)%R as O1 by (apply IZR_le; lia).
  assert (iv 0 (fmul sf s) (b2r sf)) as Hss.
  { destruct Hsf as (Fx & Hx). eapply iv_mul; [split; [exact Fx|exact (conj (proj1 Hx) (Rle_refl _))]|exact Hs|..]; try lra; try (apply rep32_IZR; lia); try (unfold mid; lra). apply rep32_b2r. }
  destruct Haf as (Fa & Ha). destruct Hsf as (Fsf & Hsf). destruct Hss as (Fss & Hss).
  set (u := fmul sf s) in *. clearbody u.
  assert (forall x z k, fin x -> (0 <= b2r x <= 1)%R -> fin z -> b2r z = IZR k -> (0 <= IZR k <= IZR o)%R ->
    fin (fmul x z) /\ (0 <= b2r (fmul x z) <= b2r x * IZR o + / 512)%R) as M.
  { intros x z k Fx Hx Fz Ez Hk. assert (0 <= b2r x * IZR k <= b2r x * IZR o)%R as P.
    { split; [apply Rmult_le_pos; lra|]. apply Rmult_le_compat_l; lra. }
    assert (b2r x * IZR o <= 32768)%R as P2 by (apply Rle_trans with (1 * 32768)%R; [apply Rmult_le_compat; lra|lra]).
    assert (Rabs (b2r x * IZR k) <= bpow radix2 15)%R as P3 by (change (bpow radix2 15) with 32768%R; apply Rabs_le; lra).
    destruct (fmul_spec x z Fx Fz) as (E & F); [rewrite Ez; eapply Rle_trans; [exact P3|apply bpow_le; lia]|].
    split; [exact F|]. rewrite E, Ez. split; [apply rnd32_ge_r; [apply rep32_IZR; lia|lra]|].
    pose proof (rnd32_err _ 15 P3 ltac:(lia)) as Er. change (bpow radix2 (15 - 25)) with (/ 1024)%R in Er. apply Rabs_le_inv in Er. lra. }
  destruct (M af (f_of_Z c) c Fa Ha Fc Vc C1) as (F1 & H1).
  destruct (M u (f_of_Z o) o Fss ltac:(lra) Fo Vo ltac:(lra)) as (F2 & H2).
  assert (b2r u * IZR o <= b2r sf * IZR o)%R as M2 by (apply Rmult_le_compat_r; lra).
  assert (b2r af * IZR o + b2r sf * IZR o <= IZR o + / 128)%R as M3.
  { rewrite <- Rmult_plus_distr_r. apply Rle_trans with ((1 + / 8388608) * IZR o)%R; [apply Rmult_le_compat_r; lra|]. lra. }
  set (A := fmul af (f_of_Z c)) in *. set (B := fmul u (f_of_Z o)) in *. clearbody A B.
  assert (0 <= b2r A + b2r B <= IZR o + / 2)%R as S by lra.
  destruct (fadd_spec A B F1 F2) as (E & F); [apply big127, Rabs_le; lra|].
  assert (0 <= b2r (fadd A B) <= IZR o + / 2)%R as T.
  { rewrite E. apply iv_rnd; [apply rep32_IZR; lia| |exact S].
    replace (IZR o + / 2)%R with (IZR (2 * o + 1) * / IZR (2 ^ 1))%R by (rewrite plus_IZR, mult_IZR; simpl; lra). apply rep32_dy; lia. }
  assert (0 <= Ztrunc (b2r (fadd A B)) <= o) as T2.
  { rewrite Ztrunc_floor by lra. split; [apply Zfloor_lub; simpl; lra|]. apply Z.lt_succ_r.
    apply lt_IZR. rewrite succ_IZR. eapply Rle_lt_trans; [apply Zfloor_lb|]. lra. }
  exists (Ztrunc (b2r (fadd A B))). split; [apply f_to_Z_ok; [exact F|lia]|exact T2].
Qed.
