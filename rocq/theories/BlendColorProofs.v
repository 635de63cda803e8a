(** Facts about the floating-point parts of brushmodes.c: posterize rounding and
    the luma arithmetic of the colorize mode. *)
From Verif Require Import Base F32 F32Proofs Blend BlendProofs.
From Coq Require Import Reals Lra Psatz.
From Flocq Require Import Core.Core IEEE754.BinarySingleNaN.

Lemma bpow15 : bpow radix2 15 = 32768%R. Proof. reflexivity. Qed.
Lemma bpowm15 : bpow radix2 (-15) = (/ 32768)%R. Proof. reflexivity. Qed.
Lemma bpowm16 : bpow radix2 (-16) = (/ 65536)%R. Proof. reflexivity. Qed.

Lemma small_le_127 : forall x, (Rabs x <= 1099511627776)%R -> (Rabs x <= bpow radix2 127)%R.
Proof.
  intros. eapply Rle_trans; [exact H|]. change 1099511627776%R with (IZR (2 ^ 40)).
  rewrite <- bpow_Z by lia. apply bpow_le. lia.
Qed.
Lemma small_le_1023 : forall x, (Rabs x <= 1099511627776)%R -> (Rabs x <= bpow radix2 1023)%R.
Proof.
  intros. eapply Rle_trans; [exact H|]. change 1099511627776%R with (IZR (2 ^ 40)).
  rewrite <- bpow_Z by lia. apply bpow_le. lia.
Qed.

Lemma half_val : b2r (dlit 1 2) = (/ 2)%R /\ fin (dlit 1 2).
Proof.
  assert (B2SF (dlit 1 2) = SpecFloat.S754_finite false 4503599627370496 (-53)) as E by (vm_compute; reflexivity).
  split.
  - rewrite <- SF2R_B2SF, E. unfold SF2R, F2R. cbn [Fnum Fexp Zaux.cond_Zopp].
    change (bpow radix2 (-53)) with (/ IZR (Z.pow_pos 2 53))%R.
    change (Z.pow_pos 2 53) with 9007199254740992. lra.
  - unfold fin. rewrite <- is_finite_SF_B2SF, E. reflexivity.
Qed.

(** the integer formula for posterize is what the float code computes *)
Lemma posterize_float_exact : forall num c, 1 <= num <= 128 -> 0 <= c <= 65535 ->
  posterize_chan_float num c = posterize_chan num c.
Proof.
  intros num c Hn Hc. unfold posterize_chan_float, posterize_chan.
  destruct (Z.eqb_spec num 0); [lia|].
  destruct (f_of_Z_exact c) as (C1 & C2); [lia|].
  destruct (f_of_Z_exact ONE) as (O1 & O2); [rewrite ONE_val; lia|].
  destruct (f_of_Z_exact num) as (N1 & N2); [lia|].
  assert (0 <= IZR c <= 65535)%R as Rc by (split; apply IZR_le; lia).
  assert (1 <= IZR num <= 128)%R as Rn by (split; apply IZR_le; lia).
  change (IZR ONE) with 32768%R in O1.
  destruct (fdiv_spec (f_of_Z c) (f_of_Z ONE)) as (D1 & D2); auto.
  { rewrite O1. lra. }
  { rewrite C1, O1. apply small_le_127. rewrite Rabs_pos_eq; lra. }
  rewrite C1, O1 in D1. rewrite rnd32_id in D1.
  2:{ replace (IZR c / 32768)%R with (IZR c * bpow radix2 (-15))%R by (rewrite bpowm15; lra).
      apply rep32_scaled; lia. }
  destruct (fmul_spec (fdiv (f_of_Z c) (f_of_Z ONE)) (f_of_Z num)) as (M1 & M2); auto.
  { rewrite D1, N1. apply small_le_127. rewrite Rabs_pos_eq; nra. }
  rewrite D1, N1 in M1. rewrite rnd32_id in M1.
  2:{ replace (IZR c / 32768 * IZR num)%R with (IZR (c * num) * bpow radix2 (-15))%R
        by (rewrite bpowm15, mult_IZR; lra).
      apply rep32_scaled; nia. }
  destruct (d_of_f_exact _ M2) as (E1 & E2). rewrite M1 in E1.
  destruct half_val as (H1 & H2).
  destruct (dadd_spec (d_of_f (fmul (fdiv (f_of_Z c) (f_of_Z ONE)) (f_of_Z num))) (dlit 1 2)) as (A1 & A2); auto.
  { rewrite E1, H1. apply small_le_1023. rewrite Rabs_pos_eq; nra. }
  rewrite E1, H1 in A1. rewrite rnd64_id in A1.
  2:{ replace (IZR c / 32768 * IZR num + / 2)%R with (IZR (2 * c * num + 32768) * bpow radix2 (-16))%R
        by (rewrite bpowm16, plus_IZR, !mult_IZR; lra).
      apply rep64_scaled; nia. }
  assert (Ztrunc (b2r (dadd (d_of_f (fmul (fdiv (f_of_Z c) (f_of_Z ONE)) (f_of_Z num))) (dlit 1 2)))
          = (2 * c * num + ONE) / (2 * ONE)) as T.
  { rewrite A1. rewrite Ztrunc_floor by nra.
    replace (IZR c / 32768 * IZR num + / 2)%R with (IZR (2 * c * num + 32768) / IZR 65536)%R
        by (rewrite plus_IZR, !mult_IZR; lra).
    rewrite Zfloor_div by lia. rewrite ONE_val. reflexivity. }
  unfold d_to_int. rewrite d_to_Z_ok; auto.
  - rewrite T. reflexivity.
  - rewrite T, ONE_val. unfold INT_MIN, INT_MAX.
    assert (0 <= (2 * c * num + 32768) / (2 * 32768) < 1000); [|lia].
    split; [apply Z.div_pos; nia|]. apply Z.div_lt_upper_bound; nia.
Qed.

(** ** Luma *)
Definition WR : Z := 28534688.
Definition WG : Z := 95992520.
Definition WB : Z := 9690520.
(** exact luma with the rounded weights, which add up to exactly 1 *)
Definition iluma (r g b : Z) : R := ((IZR WR * IZR r + IZR WG * IZR g + IZR WB * IZR b) / 134217728)%R.

Lemma luma_consts :
  b2r LUMA_RED = (IZR WR / 4096)%R /\ fin LUMA_RED /\
  b2r LUMA_GREEN = (IZR WG / 4096)%R /\ fin LUMA_GREEN /\
  b2r LUMA_BLUE = (IZR WB / 4096)%R /\ fin LUMA_BLUE.
Proof.
  assert (B2SF LUMA_RED = SpecFloat.S754_finite false 14267344 (-11)) as E1 by (vm_compute; reflexivity).
  assert (B2SF LUMA_GREEN = SpecFloat.S754_finite false 11999065 (-9)) as E2 by (vm_compute; reflexivity).
  assert (B2SF LUMA_BLUE = SpecFloat.S754_finite false 9690520 (-12)) as E3 by (vm_compute; reflexivity).
  unfold fin. rewrite <- !SF2R_B2SF, <- !is_finite_SF_B2SF, E1, E2, E3. unfold SF2R, F2R, WR, WG, WB. cbn [Fnum Fexp Zaux.cond_Zopp].
  change (bpow radix2 (-11)) with (/ 2048)%R. change (bpow radix2 (-9)) with (/ 512)%R.
  change (bpow radix2 (-12)) with (/ 4096)%R. cbn [is_finite_SF]. repeat split; lra.
Qed.

Lemma rnd_step : forall x e M, M = bpow radix2 e -> -125 <= e -> (Rabs x <= M)%R ->
  (- (M / 33554432) <= rnd32 x - x <= M / 33554432)%R.
Proof.
  intros x e M -> He Hx. pose proof (rnd32_err x e Hx He) as E.
  replace (e - 25) with (e + - 25) in E by lia. rewrite bpow_plus in E.
  change (bpow radix2 (-25)) with (/ 33554432)%R in E. apply Rabs_le_inv in E. lra.
Qed.

Lemma luma_err : forall k r g b, 15 <= k <= 17 ->
  Z.abs r <= 2 ^ k -> Z.abs g <= 2 ^ k -> Z.abs b <= 2 ^ k ->
  fin (luma r g b) /\
  (Rabs (b2r (luma r g b) - iluma r g b) <= IZR (2 ^ k) / 32768 / 128)%R.
Proof.
  intros k r g b Hk Hr Hg Hb.
  destruct luma_consts as (R1 & R2 & G1 & G2 & B1 & B2).
  assert (2 ^ k <= 131072) as Kb.
  { change 131072 with (2 ^ 17). apply Z.pow_le_mono_r; lia. }
  assert (32768 <= 2 ^ k) as Ka.
  { change 32768 with (2 ^ 15). apply Z.pow_le_mono_r; lia. }
  destruct (f_of_Z_exact r) as (r1 & r2); [lia|].
  destruct (f_of_Z_exact g) as (g1 & g2); [lia|].
  destruct (f_of_Z_exact b) as (b1 & b2); [lia|].
  destruct (f_of_Z_exact ONE) as (o1 & o2); [rewrite ONE_val; lia|]. change (IZR ONE) with 32768%R in o1.
  set (K := IZR (2 ^ k)).
  assert (32768 <= K <= 131072)%R as HK by (unfold K; split; apply IZR_le; lia).
  assert (forall z, Z.abs z <= 2 ^ k -> (- K <= IZR z <= K)%R) as Ab.
  { intros z Hz. unfold K. rewrite <- opp_IZR. split; apply IZR_le; lia. }
  apply Ab in Hr, Hg, Hb.
  assert (HKb : K = bpow radix2 k) by (unfold K; symmetry; apply bpow_Z; lia).
  assert (HP : forall j c, IZR (2 ^ j) = c -> 0 <= j -> (K * c)%R = bpow radix2 (k + j)).
  { intros j c <- Hj. rewrite bpow_plus, <- HKb, bpow_Z by lia. reflexivity. }
  unfold WR, WG, WB in *.
  (* products *)
  destruct (fmul_spec (f_of_Z r) LUMA_RED) as (pr1 & pr2); auto.
  { rewrite r1, R1. apply small_le_127. apply Rabs_le. split; lra. }
  destruct (fmul_spec (f_of_Z g) LUMA_GREEN) as (pg1 & pg2); auto.
  { rewrite g1, G1. apply small_le_127. apply Rabs_le. split; lra. }
  destruct (fmul_spec (f_of_Z b) LUMA_BLUE) as (pb1 & pb2); auto.
  { rewrite b1, B1. apply small_le_127. apply Rabs_le. split; lra. }
  rewrite r1, R1 in pr1. rewrite g1, G1 in pg1. rewrite b1, B1 in pb1.
  pose proof (rnd_step (IZR r * (28534688 / 4096)) (k + 13) (K * 8192) ltac:(apply HP; [reflexivity|lia]) ltac:(lia)
                ltac:(apply Rabs_le; split; lra)) as Er.
  pose proof (rnd_step (IZR g * (95992520 / 4096)) (k + 15) (K * 32768) ltac:(apply HP; [reflexivity|lia]) ltac:(lia)
                ltac:(apply Rabs_le; split; lra)) as Eg.
  pose proof (rnd_step (IZR b * (9690520 / 4096)) (k + 12) (K * 4096) ltac:(apply HP; [reflexivity|lia]) ltac:(lia)
                ltac:(apply Rabs_le; split; lra)) as Eb.
  rewrite <- pr1 in Er. rewrite <- pg1 in Eg. rewrite <- pb1 in Eb.
  destruct (fadd_spec (fmul (f_of_Z r) LUMA_RED) (fmul (f_of_Z g) LUMA_GREEN)) as (s1 & s2); auto.
  { apply small_le_127. apply Rabs_le. split; lra. }
  pose proof (rnd_step (b2r (fmul (f_of_Z r) LUMA_RED) + b2r (fmul (f_of_Z g) LUMA_GREEN)) (k + 16) (K * 65536)
                ltac:(apply HP; [reflexivity|lia]) ltac:(lia) ltac:(apply Rabs_le; split; lra)) as Es.
  rewrite <- s1 in Es.
  destruct (fadd_spec (fadd (fmul (f_of_Z r) LUMA_RED) (fmul (f_of_Z g) LUMA_GREEN)) (fmul (f_of_Z b) LUMA_BLUE)) as (t1 & t2); auto.
  { apply small_le_127. apply Rabs_le. split; lra. }
  pose proof (rnd_step (b2r (fadd (fmul (f_of_Z r) LUMA_RED) (fmul (f_of_Z g) LUMA_GREEN)) + b2r (fmul (f_of_Z b) LUMA_BLUE)) (k + 16) (K * 65536)
                ltac:(apply HP; [reflexivity|lia]) ltac:(lia) ltac:(apply Rabs_le; split; lra)) as Et.
  rewrite <- t1 in Et.
  unfold luma.
  set (S := fadd _ (fmul (f_of_Z b) LUMA_BLUE)) in *.
  destruct (fdiv_spec S (f_of_Z ONE)) as (q1 & q2); auto.
  { rewrite o1. lra. }
  { rewrite o1. apply small_le_127. apply Rabs_le. split; lra. }
  rewrite o1 in q1.
  pose proof (rnd_step (b2r S / 32768) (k + 1) (K * 2)
                ltac:(apply HP; [reflexivity|lia]) ltac:(lia) ltac:(apply Rabs_le; split; lra)) as Eq.
  rewrite <- q1 in Eq.
  split; [exact q2|]. unfold iluma, WR, WG, WB. apply Rabs_le. split; lra.
Qed.

Local Opaque luma.

Lemma iluma_bounds : forall lo hi r g b, (lo <= IZR r <= hi)%R -> (lo <= IZR g <= hi)%R -> (lo <= IZR b <= hi)%R ->
  (lo <= iluma r g b <= hi)%R.
Proof. intros. unfold iluma, WR, WG, WB. lra. Qed.

Lemma iluma_shift : forall r g b d, iluma (r + d) (g + d) (b + d) = (iluma r g b + IZR d)%R.
Proof. intros. unfold iluma, WR, WG, WB. rewrite !plus_IZR. lra. Qed.

Definition in15 (z : Z) : Prop := 0 <= z <= ONE.

Lemma trunc_near : forall x, (-1 < x)%R ->
  ((IZR (Ztrunc x) <= x)%R \/ Ztrunc x = 0) /\ (x < IZR (Ztrunc x) + 1)%R.
Proof.
  intros x Hx. unfold Ztrunc. destruct (Rlt_bool_spec x 0).
  - assert (Zceil x = 0) as ->. { apply Zceil_imp. change (IZR (0 - 1)) with (-1)%R. split; lra. } split; [auto|simpl; lra].
  - split; [left; apply Zfloor_lb|apply Zfloor_ub].
Qed.

(** integer luma of an in-range colour *)
Lemma lum16 : forall c, in15 (cr c) -> in15 (cg c) -> in15 (cb c) ->
  exists l, f_to_u16 (luma (cr c) (cg c) (cb c)) = Ok l /\ 0 <= l <= ONE /\
    (IZR l - /64 <= iluma (cr c) (cg c) (cb c) < IZR l + 1 + /64)%R.
Proof.
  intros c Hr Hg Hb. unfold in15 in *. onez.
  destruct (luma_err 15 (cr c) (cg c) (cb c)) as (F & E); try lia.
  assert (forall z, 0 <= z <= 32768 -> (0 <= IZR z <= 32768)%R) as Z1 by (intros; split; apply IZR_le; lia).
  destruct (iluma_bounds 0 32768 (cr c) (cg c) (cb c)) as (I1 & I2); auto.
  change (IZR (2 ^ 15)) with 32768%R in E. apply Rabs_le_inv in E.
  set (x := b2r (luma (cr c) (cg c) (cb c))) in *.
  assert (-1 < x)%R as X1 by lra.
  assert (0 <= Ztrunc x <= 32768) as X2 by (apply Ztrunc_between; simpl; try lia; lra).
  exists (Ztrunc x). split; [|split; [lia|]].
  - unfold f_to_u16. apply f_to_Z_ok; auto. fold x. lia.
  - destruct (trunc_near x X1) as ([T1|T1] & T2); [lra|]. rewrite T1 in *. lra.
Qed.

(** pure white is the only colour with integer luma 2^15 *)
Lemma lum16_white : forall c, in15 (cr c) -> in15 (cg c) -> in15 (cb c) ->
  ~ (cr c = ONE /\ cg c = ONE /\ cb c = ONE) ->
  exists l, f_to_u16 (luma (cr c) (cg c) (cb c)) = Ok l /\ 0 <= l < ONE /\
    (IZR l - /64 <= iluma (cr c) (cg c) (cb c) < IZR l + 1 + /64)%R.
Proof.
  intros c Hr Hg Hb W. destruct (lum16 c Hr Hg Hb) as (l & E & L & I).
  exists l. split; [auto|]. split; [|auto].
  assert (l <> ONE); [|lia]. intros ->.
  unfold in15 in *. onez.
  assert (cr c <= 32767 \/ cg c <= 32767 \/ cb c <= 32767) as Hd by lia.
  assert (forall z, 0 <= z <= 32768 -> (0 <= IZR z <= 32768)%R) as Z1 by (intros; split; apply IZR_le; lia).
  pose proof (Z1 _ Hr). pose proof (Z1 _ Hg). pose proof (Z1 _ Hb).
  unfold iluma, WR, WG, WB in I.
  destruct Hd as [Hd|[Hd|Hd]]; apply IZR_le in Hd; lra.
Qed.

Lemma quot_bound : forall p d lo hi, 0 < d -> lo * d <= p <= hi * d -> lo <= Z.quot p d <= hi.
Proof.
  intros p d lo hi Hd H. destruct (Z_le_gt_dec 0 p).
  - rewrite Z.quot_div_nonneg by lia. split.
    + apply Z.div_le_lower_bound; lia.
    + apply Z.div_le_upper_bound; lia.
  - assert (Z.quot p d = - ((- p) / d)) as ->.
    { replace p with (- - p) at 1 by lia. rewrite Z.quot_opp_l by lia. rewrite Z.quot_div_nonneg by lia. reflexivity. }
    assert (- hi <= (- p) / d <= - lo); [|lia]. split.
    + apply Z.div_le_lower_bound; lia.
    + apply Z.div_le_upper_bound; lia.
Qed.

Lemma clip_low : forall lum cmin v, 0 <= lum <= ONE -> cmin < 0 -> - ONE <= cmin <= v -> v < 2 * ONE ->
  exists v', clip_chan lum lum (lum - cmin) v = Ok v' /\ 0 <= v' <= Z.max v lum.
Proof.
  intros lum cmin v Hl Hc Hv Hu. onez. unfold clip_chan, div_int.
  rewrite int_val_ok by (unfold INT_MIN, INT_MAX; nia). cbn [obind].
  destruct (Z.eqb_spec (lum - cmin) 0); [lia|]. cbn [obind].
  assert (- lum <= Z.quot ((v - lum) * lum) (lum - cmin) <= Z.max v lum - lum) as Q.
  { apply quot_bound; [lia|]. split; [nia|].
    destruct (Z.max_spec v lum) as [[? ->]|[? ->]]; [|]; nia. }
  rewrite int_val_ok by (unfold INT_MIN, INT_MAX; lia).
  eexists. split; [reflexivity|]. lia.
Qed.

Lemma clip_high : forall lum cmax v, 0 <= lum <= ONE -> ONE < cmax -> cmax < 2 * ONE -> 0 <= v <= cmax ->
  exists v', clip_chan lum (ONE - lum) (cmax - lum) v = Ok v' /\ 0 <= v' <= ONE.
Proof.
  intros lum cmax v Hl Hc Hc2 Hv. onez. unfold clip_chan, div_int.
  assert ((v - lum) * (32768 - lum) <= 65535 * 32768) by nia.
  assert (-2147483648 <= (v - lum) * (32768 - lum)) by nia.
  rewrite int_val_ok by (unfold INT_MIN, INT_MAX; lia). cbn [obind].
  destruct (Z.eqb_spec (cmax - lum) 0); [lia|]. cbn [obind].
  assert (- lum <= Z.quot ((v - lum) * (32768 - lum)) (cmax - lum) <= 32768 - lum) as Q.
  { apply quot_bound; [lia|]. split; nia. }
  rewrite int_val_ok by (unfold INT_MIN, INT_MAX; lia).
  eexists. split; [reflexivity|]. lia.
Qed.

Lemma set_lum_ok : forall top bot,
  in15 (cr top) -> in15 (cg top) -> in15 (cb top) ->
  in15 (cr bot) -> in15 (cg bot) -> in15 (cb bot) ->
  ~ (cr bot = ONE /\ cg bot = ONE /\ cb bot = ONE) ->
  exists s, set_lum top bot = Ok s /\ in15 (cr s) /\ in15 (cg s) /\ in15 (cb s).
Proof.
  intros top bot T1 T2 T3 B1 B2 B3 W.
  destruct (lum16_white bot) as (bl & Eb & Lb & Ib); auto.
  destruct (lum16 top) as (tl & Et & Lt & It); auto.
  unfold set_lum. rewrite Eb. cbn [obind]. rewrite Et. cbn [obind].
  assert (i16 (bl - tl) = bl - tl) as ->.
  { unfold i16. onez. rewrite Z.mod_small by lia. lia. }
  cbv zeta. set (d := bl - tl).
  assert (- ONE <= d < ONE) as Hd by (unfold d; lia).
  unfold in15 in *.
  destruct (luma_err 17 (cr top + d) (cg top + d) (cb top + d)) as (F & E);
    try lia; try (onez; change (2 ^ 17) with 131072; lia).
  rewrite iluma_shift in E. apply Rabs_le_inv in E.
  change (IZR (2 ^ 17)) with 131072%R in E.
  set (x := b2r (luma (cr top + d) (cg top + d) (cb top + d))) in *.
  assert (IZR d = (IZR bl - IZR tl)%R) as Id by (unfold d; apply minus_IZR).
  assert (0 <= IZR bl <= 32767)%R as Hbl by (split; apply IZR_le; onez; lia).
  assert (0 <= Ztrunc x <= 32768) as X2.
  { rewrite Id in E. apply Ztrunc_between; simpl; try lia; lra. }
  unfold f_to_int. rewrite f_to_Z_ok; [|auto|fold x; unfold INT_MIN, INT_MAX; lia]. fold x.
  cbn [obind]. set (lum := Ztrunc x) in *.
  set (r := cr top + d). set (g := cg top + d). set (b := cb top + d).
  set (cmin := min3 r g b). set (cmax := max3 r g b).
  assert (cmin <= r /\ cmin <= g /\ cmin <= b /\ r <= cmax /\ g <= cmax /\ b <= cmax) as Hmm.
  { unfold cmin, cmax, min3, max3. lia. }
  assert (- ONE <= cmin) as Hcm by (unfold cmin, min3, r, g, b; lia).
  assert (cmax < 2 * ONE) as HcM by (unfold cmax, max3, r, g, b; lia).
  assert (Hl : 0 <= lum <= ONE) by (onez; lia).
  assert (exists r1 g1 b1,
    (if cmin <? 0 then
      let* r0 := clip_chan lum lum (lum - cmin) r in
      let* g0 := clip_chan lum lum (lum - cmin) g in
      let* b0 := clip_chan lum lum (lum - cmin) b in
      Ok (r0, g0, b0)
    else Ok (r, g, b)) = Ok (r1, g1, b1) /\
    (0 <= r1 <= Z.max cmax lum) /\ (0 <= g1 <= Z.max cmax lum) /\ (0 <= b1 <= Z.max cmax lum))
    as (r1 & g1 & b1 & E1 & Br & Bg & Bb).
  { destruct (Z.ltb_spec cmin 0).
    - destruct (clip_low lum cmin r) as (r1 & -> & ?); try lia.
      destruct (clip_low lum cmin g) as (g1 & -> & ?); try lia.
      destruct (clip_low lum cmin b) as (b1 & -> & ?); try lia. cbn [obind].
      exists r1, g1, b1. split; [reflexivity|]. lia.
    - exists r, g, b. split; [reflexivity|]. lia. }
  rewrite E1. cbn [obind].
  destruct (Z.ltb_spec ONE cmax).
  - destruct (clip_high lum cmax r1) as (r2 & -> & ?); try lia.
    destruct (clip_high lum cmax g1) as (g2 & -> & ?); try lia.
    destruct (clip_high lum cmax b1) as (b2 & -> & ?); try lia. cbn [obind].
    eexists. split; [reflexivity|]. cbn [cr cg cb]. onez. rewrite !u16_small by lia. lia.
  - cbn [obind]. eexists. split; [reflexivity|]. cbn [cr cg cb]. onez. rewrite !u16_small by lia. lia.
Qed.
