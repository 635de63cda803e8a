(** Rows of a dab mask have no holes: from the rounding analysis of [GapProofs]
    to the floats of [render_dab_mask] (property C10). *)
From Verif Require Import Base F32 F32Proofs Blend BlendProofs BlendColorProofs Mask MaskProofs OpaProofs AaProofs RrProofs MaskFloatProofs GapProofs.
From Coq Require Import Reals Lra Psatz.
From Flocq Require Import Core.Core IEEE754.BinarySingleNaN.
Local Open Scope R_scope.

(** ** Values of single operations *)
Lemma add_v : forall x y k, bd x k -> bd y k -> (-149 <= k <= 126)%Z -> b2r (fadd x y) = rnd32 (b2r x + b2r y).
Proof.
  intros x y k (Fx & Hx) (Fy & Hy) K. apply fadd_spec; auto.
  eapply Rle_trans; [apply Rabs_triang|]. apply Rle_trans with (bpow radix2 (k + 1)); [rewrite bpow_S; lra|apply bpow_le; lia].
Qed.
Lemma sub_v : forall x y k, bd x k -> bd y k -> (-149 <= k <= 126)%Z -> b2r (fsub x y) = rnd32 (b2r x - b2r y).
Proof.
  intros x y k (Fx & Hx) (Fy & Hy) K. apply fsub_spec; auto. unfold Rminus.
  eapply Rle_trans; [apply Rabs_triang|]. rewrite Rabs_Ropp. apply Rle_trans with (bpow radix2 (k + 1)); [rewrite bpow_S; lra|apply bpow_le; lia].
Qed.
Lemma mul_v : forall x y a b, bd x a -> bd y b -> (a + b <= 127)%Z -> b2r (fmul x y) = rnd32 (b2r x * b2r y).
Proof.
  intros x y a b (Fx & Hx) (Fy & Hy) K. apply fmul_spec; auto. rewrite Rabs_mult.
  apply Rle_trans with (bpow radix2 a * bpow radix2 b); [apply Rmult_le_compat; auto using Rabs_pos|]. rewrite <- bpow_plus. apply bpow_le; auto.
Qed.

(** the centre of a pixel *)
Lemma pixel_centre : forall p, (0 <= p <= 63)%Z -> bd (fadd (f_of_Z p) fhalf) 7 /\ b2r (fadd (f_of_Z p) fhalf) = IZR p + / 2.
Proof.
  intros p Hp. assert (bd (f_of_Z p) 6) as B by (apply bd_of_Z; lia).
  assert (bd fhalf 6) as Bh by (apply bd_weak with 0%Z; [apply bd_half|lia]). split.
  - change 7%Z with (6 + 1)%Z. apply bd_add; auto; lia.
  - rewrite (add_v _ _ 6) by (auto; lia). destruct (f_of_Z_exact p) as (-> & _); [lia|]. destruct fhalf_val as (-> & _).
    apply rnd32_id. replace (IZR p + / 2) with (IZR (2 * p + 1) * bpow radix2 (-1)) by (rewrite plus_IZR, mult_IZR; simpl; lra). apply rep32_scaled; lia.
Qed.

(** the squared distance of a pixel, as computed *)
Lemma rr_value : forall xp yp x y a sn cs oor, (0 <= xp <= 63)%Z -> (0 <= yp <= 63)%Z -> bd x 20 -> bd y 20 -> bd a 20 -> bd sn 0 -> bd cs 0 -> bd oor 9 ->
  let yy := rnd32 (IZR yp + / 2 - b2r y) in
  b2r (calculate_rr xp yp x y a sn cs oor)
    = rnd32 (rnd32 (sum (rnd32 (yy * b2r cs)) (rnd32 (yy * b2r sn)) (b2r sn) (b2r cs) (b2r a) (IZR xp + / 2 - b2r x)) * b2r oor).
Proof.
  intros xp yp x y a sn cs oor Hx Hy Bx By Ba Bs Bc Bo yy.
  destruct (pixel_centre xp Hx) as (Px & Vx). destruct (pixel_centre yp Hy) as (Py & Vy).
  assert (forall v u, bd v 20 -> bd u 7 -> bd (fsub u v) 21 /\ b2r (fsub u v) = rnd32 (b2r u - b2r v)) as K.
  { intros v u Bv Bu. assert (bd u 20) by (apply bd_weak with 7%Z; auto; lia). split; [change 21%Z with (20 + 1)%Z; apply bd_sub; auto; lia|apply sub_v with 20%Z; auto; lia]. }
  destruct (K x _ Bx Px) as (Bxx & Vxx). destruct (K y _ By Py) as (Byy & Vyy). rewrite Vx in Vxx. rewrite Vy in Vyy. fold yy in Vyy.
  unfold calculate_rr.
  set (fx := fsub (fadd (f_of_Z xp) fhalf) x) in *. set (fy := fsub (fadd (f_of_Z yp) fhalf) y) in *.
  assert (bd (fmul fy cs) (21 + 0)) as B1 by (apply bd_mul; auto; lia). assert (bd (fmul fx sn) (21 + 0)) as B2 by (apply bd_mul; auto; lia).
  assert (bd (fmul fy sn) (21 + 0)) as B3 by (apply bd_mul; auto; lia). assert (bd (fmul fx cs) (21 + 0)) as B4 by (apply bd_mul; auto; lia).
  assert (bd (fsub (fmul fy cs) (fmul fx sn)) (21 + 0 + 1)) as B5 by (apply bd_sub; auto; lia).
  assert (bd (fadd (fmul fy sn) (fmul fx cs)) (21 + 0 + 1)) as B6 by (apply bd_add; auto; lia).
  assert (bd (fmul (fsub (fmul fy cs) (fmul fx sn)) a) (22 + 20)) as B7 by (apply bd_mul; auto; lia).
  set (Y := fmul (fsub (fmul fy cs) (fmul fx sn)) a) in *. set (X := fadd (fmul fy sn) (fmul fx cs)) in *.
  assert (bd (fmul Y Y) (42 + 42)) as B8 by (apply bd_mul; auto; lia). assert (bd (fmul X X) (42 + 42)) as B9 by (apply bd_mul; auto; try lia; apply bd_weak with 22%Z; auto; lia).
  rewrite (mul_v _ _ 85 9) by (auto; try lia; change 85%Z with (84 + 1)%Z; apply bd_add; auto; lia).
  rewrite (add_v _ _ 84) by (auto; lia). rewrite (mul_v Y Y 42 42) by (auto; lia). rewrite (mul_v X X 22 22) by (auto; lia).
  unfold Y, X. rewrite (mul_v _ a 22 20) by (auto; lia). rewrite (sub_v _ _ 21) by (auto; lia). rewrite (add_v _ _ 21) by (auto; lia).
  rewrite (mul_v fy cs 21 0), (mul_v fy sn 21 0), (mul_v fx cs 21 0), (mul_v fx sn 21 0) by (auto; lia). rewrite Vxx, Vyy. reflexivity.
Qed.

(** the scale *)
Lemma oor_value : forall r, fin r -> 3 <= b2r r <= 1010 ->
  b2r (fdiv f1 (fmul r r)) = rnd32 (1 / rnd32 (b2r r * b2r r)) /\ 98028 / 100000000000 <= b2r (fdiv f1 (fmul r r)) <= 1.
Proof.
  intros r F H. destruct f1_val as (V1 & F1).
  assert (9 <= b2r r * b2r r <= 1020100) as S by nra.
  destruct (fmul_spec r r F F) as (E1 & G1).
  { rewrite Rabs_pos_eq by lra. apply Rle_trans with (bpow radix2 20); [change (bpow radix2 20) with 1048576; lra|apply bpow_le; lia]. }
  assert (9 <= rnd32 (b2r r * b2r r) <= 1020100) as R.
  { split; [apply rnd32_ge_r; [apply (rep32_IZR 9); lia|lra]|apply rnd32_le_r; [apply (rep32_IZR 1020100); lia|lra]]. }
  assert (98029 / 100000000000 <= 1 / rnd32 (b2r r * b2r r) <= 1) as Q.
  { split; [|apply div_le; lra]. unfold Rdiv. rewrite Rmult_1_l. apply Rle_trans with (/ 1020100); [lra|apply Rinv_le_contravar; lra]. }
  destruct (fdiv_spec f1 (fmul r r) F1) as (E2 & _).
  { lra. }
  { rewrite V1, E1, Rabs_pos_eq by lra. apply Rle_trans with (bpow radix2 0); [simpl; lra|apply bpow_le; lia]. }
  rewrite E2, V1, E1. split; auto. split.
  - pose proof (rel_err (1 / rnd32 (b2r r * b2r r))) as E. rewrite (Rabs_pos_eq (1 / _)) in E by lra. apply abs_case in E. unfold U, tau in E. lra.
  - apply rnd32_le_r; [apply (rep32_IZR 1); lia|lra].
Qed.

(** the rows of the box are within the radius plus a few pixels *)
Lemma row_near : forall v r p lo hi, bd v 20 -> fin r -> 3 <= b2r r <= 1010 ->
  IZR lo <= b2r (fsub v (fadd r f1)) < IZR lo + 1 -> IZR hi <= b2r (fadd v (fadd r f1)) < IZR hi + 1 ->
  (Z.max lo 0 <= p <= Z.min hi 63)%Z -> Rabs (IZR p + / 2 - b2r v) <= 1014.
Proof.
  intros v r p lo hi Bv F H Lo Hi Hp.
  destruct (fringe_ap r F ltac:(lra)) as (Bf & _). destruct f1_val as (V1 & F1).
  assert (b2r (fadd r f1) <= 1011) as M.
  { destruct (fadd_spec r f1 F F1) as (E & _).
    { rewrite V1. apply Rle_trans with (bpow radix2 10); [simpl; apply Rabs_le; lra|apply bpow_le; lia]. }
    rewrite E, V1. apply rnd32_le_r; [apply (rep32_IZR 1011); lia|lra]. }
  assert (0 <= b2r (fadd r f1)) as M0 by (destruct (fringe_ap r F ltac:(lra)) as (_ & X & _); lra).
  destruct Bv as (Fv & Hv). change (bpow radix2 20) with 1048576 in Hv. apply Rabs_le_inv in Hv.
  assert (Big : forall z, Rabs z <= 2097152 -> Rabs z <= bpow radix2 127 /\ Rabs (rnd32 z - z) <= / 16).
  { intros z Hz. split.
    - apply Rle_trans with (bpow radix2 21); [exact Hz|apply bpow_le; lia].
    - change (/ 16) with (bpow radix2 (21 - 25)). apply rnd32_err; [exact Hz|lia]. }
  destruct (Big (b2r v - b2r (fadd r f1))) as (B1 & B2); [apply Rabs_le; lra|].
  destruct (Big (b2r v + b2r (fadd r f1))) as (B3 & B4); [apply Rabs_le; lra|].
  destruct (fsub_spec v (fadd r f1) Fv (proj1 Bf) B1) as (E1 & _). destruct (fadd_spec v (fadd r f1) Fv (proj1 Bf) B3) as (E2 & _).
  apply Rabs_le_inv in B2, B4. rewrite E1 in Lo. rewrite E2 in Hi.
  assert (Ip1 : IZR lo <= IZR p) by (apply IZR_le; lia). assert (Ip2 : IZR p <= IZR hi) by (apply IZR_le; lia).
  apply Rabs_le. lra.
Qed.

(** ** Along a row the computed distance has no hump *)
Lemma rr_between : forall trig x y r h s a angle x0 y0 x1 y1 i j k row,
  dab_ok trig x y r h s a angle -> 3 <= b2r r <= 1010 -> dab_box x y r = Ok (x0, y0, x1, y1) ->
  (x0 <= i)%Z -> (i < j < k)%Z -> (k <= x1)%Z -> (y0 <= row <= y1)%Z ->
  let rr p := b2r (rr_at trig x y r a angle p row) in
  rr i <= 1 -> rr k <= 1 -> rr j <= rr i \/ rr j <= rr k.
Proof.
  intros trig x y r h s a angle x0 y0 x1 y1 i j k row D Hr B Hi Hj Hk Hrow rr Ri Rk.
  pose proof (dab_box_range _ _ _ _ _ _ _ _ _ _ _ _ D B) as BR. destruct D as [Bx By (Fr & _) _ _ Ba T].
  destruct (dab_box_ok x y r Bx By Fr ltac:(lra)) as (X0 & Y0' & X1 & Y1 & E & P1 & P2 & P3 & P4 & _).
  rewrite B in E. injection E as -> -> -> ->.
  pose proof (row_near y r row Y0' Y1 By Fr Hr P2 P4 Hrow) as NY.
  destruct (fix_aspect_ok a Ba) as (Ba' & La). destruct (oor_ok r Fr ltac:(lra)) as (Bo & No). destruct (oor_value r Fr Hr) as (_ & Ho).
  destruct (trig angle) as (cs, sn) eqn:ET. destruct T as (Bc & Bs & Q). cbn [fst snd] in *.
  set (oor := fdiv f1 (fmul r r)) in *.
  set (yy := rnd32 (IZR row + / 2 - b2r y)). set (c1 := rnd32 (yy * b2r cs)). set (c2 := rnd32 (yy * b2r sn)).
  assert (VAL : forall p, (Z.max X0 0 <= p <= Z.min X1 63)%Z -> rr p = rnd32 (rnd32 (sum c1 c2 (b2r sn) (b2r cs) (b2r (fix_aspect a)) (IZR p + / 2 - b2r x)) * b2r oor)).
  { intros p Hp. unfold rr, rr_at. fold (fix_aspect a). rewrite ET. fold oor.
    destruct (f_of_Z_exact 3) as (V3 & F3); [lia|]. fold f3 in V3, F3. rewrite flt_spec, V3 by auto. rewrite Rlt_bool_false by lra.
    apply rr_value; auto; lia. }
  destruct Bc as (Fc & Hc). destruct Bs as (Fs & Hs). change (bpow radix2 0) with 1 in Hc, Hs. destruct Ba' as (Fa & Ha). change (bpow radix2 20) with 1048576 in Ha.
  assert (Rabs (b2r sn * b2r sn + b2r cs * b2r cs - 1) <= / 65536) as Q1 by (rewrite (Rplus_comm (b2r sn * _)); exact Q).
  assert (Rabs yy <= 1015) as Byy.
  { unfold yy. pose proof (abs_err (IZR row + / 2 - b2r y) 10) as E. change (bpow radix2 10) with 1024 in E. specialize (E ltac:(lra) ltac:(lia)).
    apply abs_case in E, NY. unfold U in E. apply abs_case. lra. }
  assert (forall z, Rabs z <= 1 -> Rabs (rnd32 (yy * z) - yy * z) <= / 10000) as RE.
  { intros z Hz. pose proof (rel_err (yy * z)) as E. rewrite Rabs_mult in E.
    assert (Rabs yy * Rabs z <= 1015 * 1) by (apply Rmult_le_compat; auto using Rabs_pos). unfold U, tau in E. pose proof (Rabs_pos yy). lra. }
  assert (Rabs (b2r cs * c2 - b2r sn * c1) <= / 1000) as Q2.
  { pose proof (RE _ Hc) as E1. pose proof (RE _ Hs) as E2. fold c1 in E1. fold c2 in E2.
    replace (b2r cs * c2 - b2r sn * c1) with (b2r cs * (c2 - yy * b2r sn) + - (b2r sn * (c1 - yy * b2r cs))) by ring.
    eapply Rle_trans; [apply Rabs_triang|]. rewrite Rabs_Ropp, !Rabs_mult.
    assert (Rabs (b2r cs) * Rabs (c2 - yy * b2r sn) <= 1 * / 10000) by (apply Rmult_le_compat; auto using Rabs_pos).
    assert (Rabs (b2r sn) * Rabs (c1 - yy * b2r cs) <= 1 * / 10000) by (apply Rmult_le_compat; auto using Rabs_pos). lra. }
  apply abs_case in Hc, Hs, Ha.
  set (SUM := sum c1 c2 (b2r sn) (b2r cs) (b2r (fix_aspect a))) in *.
  assert (SMALL : forall p, (Z.max X0 0 <= p <= Z.min X1 63)%Z -> rr p <= 1 -> SUM (IZR p + / 2 - b2r x) <= 1024150).
  { intros p Hp L. rewrite VAL in L by auto. apply Rnot_lt_le. intros C.
    assert (1024150 <= rnd32 (SUM (IZR p + / 2 - b2r x))) as G by (apply rnd32_ge_r; [apply (rep32_IZR 1024150); lia|lra]).
    assert (1024150 * (98028 / 100000000000) <= rnd32 (SUM (IZR p + / 2 - b2r x)) * b2r oor) as G2 by (apply Rmult_le_compat; lra).
    assert (1 + / 1024 <= rnd32 (rnd32 (SUM (IZR p + / 2 - b2r x)) * b2r oor)); [|lra].
    apply rnd32_ge_r; [|lra]. replace (1 + / 1024) with (IZR 1025 * bpow radix2 (-10)) by (simpl; lra). apply rep32_scaled; lia. }
  assert (IZR i + 1 <= IZR j) as D1 by (rewrite <- (plus_IZR i 1); apply IZR_le; lia).
  assert (IZR j + 1 <= IZR k) as D2 by (rewrite <- (plus_IZR j 1); apply IZR_le; lia).
  pose proof (sum_between c1 c2 (b2r sn) (b2r cs) (b2r (fix_aspect a)) Hs Hc ltac:(lra) Q1 Q2 (IZR i + / 2 - b2r x) (IZR j + / 2 - b2r x) (IZR k + / 2 - b2r x) ltac:(lra) ltac:(lra)) as SB.
  fold SUM in SB. specialize (SB (SMALL i ltac:(lia) Ri) (SMALL k ltac:(lia) Rk)). rewrite (VAL j), (VAL i), (VAL k) by lia.
  destruct (Rle_lt_dec (SUM (IZR i + / 2 - b2r x)) (SUM (IZR k + / 2 - b2r x))) as [L|L].
  - rewrite Rmax_right in SB by auto. right. apply rnd32_le. apply Rmult_le_compat_r; [lra|]. apply rnd32_le. auto.
  - rewrite Rmax_left in SB by lra. left. apply rnd32_le. apply Rmult_le_compat_r; [lra|]. apply rnd32_le. auto.
Qed.

(** ** A pixel nearer than a painted one is painted *)
Lemma painted_inwards : forall h s r1 r2 z1 z2, fin h -> bpow radix2 (-126) <= b2r h <= 1 -> fin s -> 0 <= b2r s <= 1 ->
  / 1000000 < Rabs (b2r h * (1 - b2r s) - / 32768) ->
  fin r1 -> fin r2 -> 0 <= b2r r1 <= b2r r2 ->
  opa_u16 (calculate_opa r1 h (segments h s)) = Ok z1 -> opa_u16 (calculate_opa r2 h (segments h s)) = Ok z2 ->
  z2 <> 0%Z -> z1 <> 0%Z.
Proof.
  intros h s r1 r2 z1 z2 Fh Hh Fs Hs G F1 F2 L E1 E2 N2.
  assert (nonneg_f r1) as NN1 by (left; split; auto; lra). assert (nonneg_f r2) as NN2 by (left; split; auto; lra).
  destruct (opa_u16_range h s Fh Hh Fs Hs r2 NN2) as (w2 & W2 & R2). rewrite W2 in E2. injection E2 as ->.
  destruct (opa_u16_range h s Fh Hh Fs Hs r1 NN1) as (w1 & W1 & R1). rewrite W1 in E1. injection E1 as ->.
  destruct (opa_steps h s Fh Hh Fs Hs r1 r2 NN1 NN2) as (v1 & v2 & V1 & V2 & _ & M). { intros _; split; auto; lra. }
  rewrite W1 in V1. injection V1 as <-. rewrite W2 in V2. injection V2 as <-. specialize (M F2).
  destruct (Rle_lt_dec (b2r r2) (b2r h)) as [K|K]; [specialize (M (or_introl K)); lia|].
  destruct (Rle_lt_dec (b2r r1) (b2r h)) as [K1|K1]; [|specialize (M (or_intror K1)); lia].
  clear M.
  destruct (opa_range h s Fh Hh Fs Hs r1 NN1) as (A1 & B1). destruct (opa_range h s Fh Hh Fs Hs r2 NN2) as (A2 & B2).
  destruct (opa_u16_val _ A1 B1) as (y1 & Y1 & T1). rewrite W1 in Y1. injection Y1 as <-.
  destruct (opa_u16_val _ A2 B2) as (y2 & Y2 & T2). rewrite W2 in Y2. injection Y2 as <-.
  destruct f1_val as (VV & FF).
  destruct (Rlt_le_dec 1 (b2r r2)) as [Big|Small].
  { exfalso. apply N2. rewrite T2, (opa_edge h s Fh Hh Fs Hs r2) by (auto; left; split; auto; lra).
    rewrite Rmult_0_l, rnd32_id by (apply (rep32_IZR 0); lia). apply (Ztrunc_IZR 0). }
  destruct (o_val s Fs Hs) as (Fo & Ho).
  assert (Rabs (b2r (fsub f1 s) - (1 - b2r s)) <= U / 2) as OE.
  { destruct (fsub_spec f1 s FF Fs) as (-> & _); [apply big127; rewrite VV; eapply Rle_trans; [|apply (bpow_le radix2 0); lia]; simpl; apply Rabs_le; lra|].
    rewrite VV. pose proof (abs_err (1 - b2r s) 0) as E. change (bpow radix2 0) with 1 in E. specialize (E ltac:(apply Rabs_le; lra) ltac:(lia)). lra. }
  pose proof (h_pos h Hh) as Hp.
  assert (Rabs (b2r h * b2r (fsub f1 s) - b2r h * (1 - b2r s)) <= U / 2) as HO.
  { rewrite <- Rmult_minus_distr_l, Rabs_mult, (Rabs_pos_eq (b2r h)) by lra. pose proof (Rabs_pos (b2r (fsub f1 s) - (1 - b2r s))). nra. }
  assert (NEAR : b2r h * b2r (fsub f1 s) - 9 * U <= b2r (calculate_opa r1 h (segments h s))).
  { unfold calculate_opa, segments. rewrite !flt_spec, !fle_spec by auto. rewrite VV. rewrite Rlt_bool_false, Rle_bool_true by lra.
    apply near_low; auto; lra. }
  assert (FAR : b2r (calculate_opa r2 h (segments h s)) <= b2r h * b2r (fsub f1 s) + 9 * U).
  { unfold calculate_opa, segments. rewrite !flt_spec, !fle_spec by auto. rewrite VV. rewrite Rlt_bool_false, Rle_bool_false by lra.
    apply far_ok; auto; lra. }
  unfold Rabs at 1 in G. destruct (Rcase_abs (b2r h * (1 - b2r s) - / 32768)) as [C|C].
  - exfalso. apply N2. apply abs_case in HO. unfold U in *.
    rewrite T2. apply Z.le_antisymm.
    + assert (rnd32 (b2r (calculate_opa r2 h (segments h s)) * 32768) <= 1 - / 256) as X.
      { apply rnd32_le_r; [|lra]. replace (1 - / 256) with (IZR 255 * bpow radix2 (-8)) by (simpl; lra). apply rep32_scaled; lia. }
      apply Z.lt_succ_r. apply Z.le_lt_trans with (Ztrunc (1 - / 256)); [apply Ztrunc_le; exact X|].
      rewrite Ztrunc_floor by lra. apply lt_IZR. pose proof (Zfloor_lb (1 - / 256)). simpl. lra.
    + rewrite <- T2. lia.
  - apply abs_case in HO. unfold U in *. rewrite T1.
    assert (1 <= rnd32 (b2r (calculate_opa r1 h (segments h s)) * 32768)) as X by (apply rnd32_ge_r; [apply (rep32_IZR 1); lia|lra]).
    apply Ztrunc_le in X. rewrite (Ztrunc_IZR 1) in X. lia.
Qed.

(** ** No holes *)
Lemma rows_whole : forall trig x y r h s a angle x0 y0 x1 y1,
  dab_ok trig x y r h s a angle -> 3 <= b2r r <= 1010 -> dab_box x y r = Ok (x0, y0, x1, y1) ->
  / 1000000 < Rabs (b2r (clampf h f0 f1) * (1 - b2r s) - / 32768) ->
  forall i j k row, (x0 <= i)%Z -> (i < j < k)%Z -> (k <= x1)%Z -> (y0 <= row <= y1)%Z ->
  let val p := mask_value trig x y r (clampf h f0 f1) s a angle p row in
  val i <> Ok 0%Z -> val k <> Ok 0%Z -> val j <> Ok 0%Z.
Proof.
  intros trig x y r h s a angle x0 y0 x1 y1 D Hr B G i j k row Hi Hj Hk Hrow val Ni Nk.
  pose proof (dab_box_range _ _ _ _ _ _ _ _ _ _ _ _ D B) as BR.
  assert (V : forall p, (x0 <= p <= x1)%Z -> exists z, val p = Ok z) by (intros p Hp; destruct (mask_value_ok _ _ _ _ _ _ _ _ p row _ _ _ _ D B Hp Hrow) as (v & Ev & _); eauto).
  pose proof D as [Bx By (Fr & Hr0) (Fh & Hh) (Fs & Hs) Ba T]. destruct (clamp_h h Fh Hh) as (Fc & Hc).
  assert (FIN : forall p, (x0 <= p <= x1)%Z -> fin (rr_at trig x y r a angle p row) /\ 0 <= b2r (rr_at trig x y r a angle p row)).
  { intros p Hp. destruct (fix_aspect_ok a Ba) as (Ba' & _). destruct (oor_ok r Fr ltac:(lra)) as (Bo & No). unfold rr_at. fold (fix_aspect a).
    destruct (trig angle) as (cs, sn). destruct T as (Bc & Bs & _). destruct (f_of_Z_exact 3) as (V3 & F3); [lia|]. fold f3 in V3, F3. rewrite flt_spec, V3 by auto. rewrite Rlt_bool_false by lra.
    destruct (rr_plain_ok p row x y (fix_aspect a) sn cs (fdiv f1 (fmul r r))) as ((F & _) & N); auto; lia. }
  assert (LE1 : forall p, (x0 <= p <= x1)%Z -> val p <> Ok 0%Z -> b2r (rr_at trig x y r a angle p row) <= 1).
  { intros p Hp N. apply Rnot_lt_le. intros C. apply N. destruct (FIN p Hp) as (F & P). unfold val, mask_value.
    assert (nonneg_f (rr_at trig x y r a angle p row)) as NN by (left; auto).
    destruct (opa_range _ _ Fc Hc Fs Hs _ NN) as (A1 & B1). destruct (opa_u16_val _ A1 B1) as (z & -> & ->). f_equal.
    rewrite (opa_edge _ _ Fc Hc Fs Hs) by (auto; left; split; auto; lra). rewrite Rmult_0_l, rnd32_id by (apply (rep32_IZR 0); lia). apply (Ztrunc_IZR 0). }
  destruct (V i ltac:(lia)) as (zi & Ei). destruct (V j ltac:(lia)) as (zj & Ej). destruct (V k ltac:(lia)) as (zk & Ek).
  destruct (FIN i ltac:(lia)) as (Fi & Pi). destruct (FIN j ltac:(lia)) as (Fj & Pj). destruct (FIN k ltac:(lia)) as (Fk & Pk).
  pose proof (LE1 i ltac:(lia) Ni) as Li. pose proof (LE1 k ltac:(lia) Nk) as Lk.
  rewrite Ej. intros C. injection C as ->.
  destruct (rr_between trig x y r h s a angle x0 y0 x1 y1 i j k row D Hr B Hi Hj Hk Hrow Li Lk) as [L|L].
  - apply (painted_inwards (clampf h f0 f1) s (rr_at trig x y r a angle j row) (rr_at trig x y r a angle i row) 0 zi); auto. intros ->. apply Ni. exact Ei.
  - apply (painted_inwards (clampf h f0 f1) s (rr_at trig x y r a angle j row) (rr_at trig x y r a angle k row) 0 zk); auto. intros ->. apply Nk. exact Ek.
Qed.
