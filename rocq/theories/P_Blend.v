(** Properties C06, C07, C08, C09: what one dab does to one pixel.

    A pixel is four integers r, g, b, a; colours are premultiplied by alpha and
    full scale is 2^15. *)
From Verif Require Import Base F32 Blend BlendProofs BlendColorProofs.

Definition full : Z := 2 ^ 15.

Definition valid (p : pixel) : Prop :=
  0 <= pr p <= pa p /\ 0 <= pg p <= pa p /\ 0 <= pb p <= pa p /\ pa p <= full.

Definition frac (z : Z) : Prop := 0 <= z <= full.
Definition colour_ok (c : rgb) : Prop := frac (cr c) /\ frac (cg c) /\ frac (cb c).

(** the three ordinary blend modes with their parameters *)
Inductive ordinary : Type :=
| Normal (c : rgb) (opacity : Z)
| Eraser (c : rgb) (color_alpha opacity : Z)
| LockAlpha (c : rgb) (opacity : Z).

Definition ordinary_ok (d : ordinary) : Prop :=
  match d with
  | Normal c o | LockAlpha c o => colour_ok c /\ frac o
  | Eraser c ca o => colour_ok c /\ frac ca /\ frac o
  end.

(** the model's functions *)
Definition run (d : ordinary) (m : Z) (p : pixel) : outcome pixel :=
  match d with
  | Normal c o => blend_normal c o m p
  | Eraser c ca o => blend_eraser c ca o m p
  | LockAlpha c o => blend_lock_alpha c o m p
  end.

(** what should be computed, over unbounded integers: [top] is the weight of
    the brush colour, [bottom] the weight of the old pixel, both out of 2^15 *)
Definition composite (top bottom : Z) (c : rgb) (p : pixel) (alpha : Z) : pixel :=
  mkPx ((top * cr c + bottom * pr p) / full)
       ((top * cg c + bottom * pg p) / full)
       ((top * cb c + bottom * pb p) / full)
       alpha.

Definition exact (d : ordinary) (m : Z) (p : pixel) : pixel :=
  match d with
  | Normal c o =>
      let t := m * o / full in
      composite t (full - t) c p (t + (full - t) * pa p / full)
  | Eraser c ca o =>
      let t := m * o / full in
      composite (t * ca / full) (full - t) c p (t * ca / full + (full - t) * pa p / full)
  | LockAlpha c o =>
      let t := m * o / full in
      composite (t * pa p / full) (full - t) c p (pa p)
  end.

Lemma fullE : full = ONE. Proof. reflexivity. Qed.

(** ** C06 *)

Theorem C06_blend_exact_and_valid : forall d m p,
  ordinary_ok d -> frac m -> valid p ->
  run d m p = Ok (exact d m p) /\ valid (exact d m p).
Proof.
  unfold frac, valid, colour_ok. intros d m p Hd Hm (Hr & Hg & Hb & Ha).
  rewrite fullE in *.
  destruct d as [c o|c ca o|c o]; cbn [ordinary_ok] in Hd; unfold colour_ok, frac in Hd; rewrite fullE in Hd.
  - destruct Hd as ((Cr & Cg & Cb) & Ho).
    destruct (opa_a_exact m o) as (Ea & Ba); auto.
    unfold run, exact, blend_normal, composite. rewrite fullE. rewrite Ea.
    set (t := m * o / ONE) in *. cbv zeta. rewrite opa_b_exact by lia.
    destruct (mix_exact t (ONE - t) (cr c) (pr p)) as (-> & ?); try lia.
    destruct (mix_exact t (ONE - t) (cg c) (pg p)) as (-> & ?); try lia.
    destruct (mix_exact t (ONE - t) (cb c) (pb p)) as (-> & ?); try lia.
    destruct (alpha_exact t (ONE - t) (pa p)) as (-> & ?); try lia.
    split; [reflexivity|]. cbn [pr pg pb pa].
    pose proof (chan_le_alpha t (ONE - t) (cr c) (pr p) (pa p)).
    pose proof (chan_le_alpha t (ONE - t) (cg c) (pg p) (pa p)).
    pose proof (chan_le_alpha t (ONE - t) (cb c) (pb p) (pa p)). lia.
  - destruct Hd as ((Cr & Cg & Cb) & Hca & Ho).
    destruct (opa_a_exact m o) as (Ea & Ba); auto.
    unfold run, exact, blend_eraser, composite. rewrite fullE. rewrite Ea.
    set (t := m * o / ONE) in *. cbv zeta. rewrite opa_b_exact by lia.
    rewrite (u32_small (t * ca)) by (onez; nia).
    pose proof (scale_le t ca) as S.
    set (t2 := t * ca / ONE) in *.
    destruct (mix_exact t2 (ONE - t) (cr c) (pr p)) as (-> & ?); try lia.
    destruct (mix_exact t2 (ONE - t) (cg c) (pg p)) as (-> & ?); try lia.
    destruct (mix_exact t2 (ONE - t) (cb c) (pb p)) as (-> & ?); try lia.
    destruct (alpha_exact t2 (ONE - t) (pa p)) as (-> & ?); try lia.
    split; [reflexivity|]. cbn [pr pg pb pa].
    pose proof (chan_le_alpha t2 (ONE - t) (cr c) (pr p) (pa p)).
    pose proof (chan_le_alpha t2 (ONE - t) (cg c) (pg p) (pa p)).
    pose proof (chan_le_alpha t2 (ONE - t) (cb c) (pb p) (pa p)). lia.
  - destruct Hd as ((Cr & Cg & Cb) & Ho).
    destruct (opa_a_exact m o) as (Ea & Ba); auto.
    unfold run, exact, blend_lock_alpha, composite. rewrite fullE. rewrite Ea.
    set (t := m * o / ONE) in *. cbv zeta. rewrite opa_b_exact by lia.
    rewrite (u32_small (t * pa p)) by (onez; nia).
    pose proof (scale_le t (pa p)) as S.
    pose proof (split_le t (ONE - t) (pa p)) as SP.
    set (t2 := t * pa p / ONE) in *.
    destruct (mix_exact t2 (ONE - t) (cr c) (pr p)) as (-> & ?); try lia.
    destruct (mix_exact t2 (ONE - t) (cg c) (pg p)) as (-> & ?); try lia.
    destruct (mix_exact t2 (ONE - t) (cb c) (pb p)) as (-> & ?); try lia.
    split; [reflexivity|]. cbn [pr pg pb pa].
    pose proof (chan_le_alpha t2 (ONE - t) (cr c) (pr p) (pa p)).
    pose proof (chan_le_alpha t2 (ONE - t) (cg c) (pg p) (pa p)).
    pose proof (chan_le_alpha t2 (ONE - t) (cb c) (pb p) (pa p)). lia.
Qed.
Print Assumptions C06_blend_exact_and_valid.

(** any number of dabs *)
Theorem C06_any_dab_sequence : forall (ds : list (ordinary * Z)) p,
  (forall d m, In (d, m) ds -> ordinary_ok d /\ frac m) -> valid p ->
  exists p', ofold (fun p dm => run (fst dm) (snd dm) p) ds p = Ok p' /\ valid p'.
Proof.
  induction ds as [|[d m] ds IH]; intros p H V.
  - exists p. split; [reflexivity|auto].
  - destruct (H d m) as (Od & Fm); [simpl; auto|].
    destruct (C06_blend_exact_and_valid d m p Od Fm V) as (E & V').
    cbn [ofold fst snd]. rewrite E. cbn [obind]. apply IH; auto.
    intros d' m' X. apply H. simpl; auto.
Qed.
Print Assumptions C06_any_dab_sequence.

Example C06_example :
  let d := Eraser (mkRgb 32768 1000 32767) 12345 32768 in
  let p := mkPx 30000 29999 1 30000 in
  ordinary_ok d /\ frac 20001 /\ valid p /\
  run d 20001 p = Ok (mkPx 19223 11918 7535 19223).
Proof. cbv zeta. unfold ordinary_ok, colour_ok, frac, valid, full. cbn [cr cg cb pr pg pb pa].
  change (2 ^ 15) with 32768. repeat split; try lia. Qed.

(** ** C09 *)

Definition opacity_of (d : ordinary) : Z :=
  match d with Normal _ o | Eraser _ _ o | LockAlpha _ o => o end.

(** opacity zero, or a mask value of zero, changes nothing *)
Theorem C09_zero_opacity : forall d m p, ordinary_ok d -> frac m -> valid p ->
  opacity_of d = 0 \/ m = 0 -> run d m p = Ok p.
Proof.
  intros d m p Hd Hm V Z0. destruct (C06_blend_exact_and_valid d m p Hd Hm V) as (-> & _).
  f_equal. destruct V as (Hr & Hg & Hb & Ha). rewrite fullE in *.
  assert (forall x, (0 * x + ONE * x) / ONE = x) as K.
  { intros. rewrite Z.mul_0_l, Z.add_0_l, Z.mul_comm. apply Z.div_mul. rewrite ONE_val; lia. }
  assert (forall x, ONE * x / ONE = x) as K2.
  { intros. rewrite Z.mul_comm. apply Z.div_mul. rewrite ONE_val; lia. }
  assert (m * opacity_of d = 0) as MO by (destruct Z0 as [-> | ->]; [apply Z.mul_0_r|apply Z.mul_0_l]).
  destruct d; cbn [opacity_of] in MO; unfold exact, composite; rewrite fullE; rewrite MO;
    rewrite (Z.div_0_l ONE) by (rewrite ONE_val; lia); rewrite ?Z.mul_0_l;
    rewrite ?(Z.div_0_l ONE) by (rewrite ONE_val; lia);
    rewrite ?Z.sub_0_r, ?Z.mul_0_l, ?Z.add_0_l, ?K2; destruct p; reflexivity.
Qed.
Print Assumptions C09_zero_opacity.

(** full opacity under a full mask: exactly the brush colour; an eraser with
    colour alpha 0 clears to exactly zero; lock-alpha gives the brush colour at
    the old coverage *)
Theorem C09_full_opacity : forall c p, colour_ok c -> valid p ->
  run (Normal c full) full p = Ok (mkPx (cr c) (cg c) (cb c) full) /\
  run (Eraser c 0 full) full p = Ok (mkPx 0 0 0 0) /\
  run (LockAlpha c full) full p =
    Ok (mkPx (pa p * cr c / full) (pa p * cg c / full) (pa p * cb c / full) (pa p)).
Proof.
  intros c p Hc V.
  assert (frac full) as Ff by (unfold frac, full; lia).
  assert (frac 0) as F0 by (unfold frac, full; lia).
  destruct (C06_blend_exact_and_valid (Normal c full) full p) as (-> & _); cbn [ordinary_ok]; auto.
  destruct (C06_blend_exact_and_valid (Eraser c 0 full) full p) as (-> & _); cbn [ordinary_ok]; auto.
  destruct (C06_blend_exact_and_valid (LockAlpha c full) full p) as (-> & _); cbn [ordinary_ok]; auto.
  unfold exact, composite. rewrite fullE.
  assert (ONE <> 0) by (rewrite ONE_val; lia).
  rewrite !(Z.div_mul ONE ONE) by auto.
  rewrite Z.sub_diag, !Z.mul_0_l, !Z.mul_0_r, !Z.add_0_r. rewrite !Z.div_0_l by auto.
  rewrite !(Z.mul_comm ONE). rewrite !Z.div_mul by auto. rewrite ?Z.mul_0_l. rewrite ?Z.div_0_l by auto.
  rewrite ?Z.add_0_l, ?(Z.mul_comm (pa p)). repeat split.
Qed.
Print Assumptions C09_full_opacity.

(** painting never lowers alpha, erasing (colour alpha 0) never raises it *)
Theorem C09_alpha_direction : forall c o m p, colour_ok c -> frac o -> frac m -> valid p ->
  (forall p', run (Normal c o) m p = Ok p' -> pa p <= pa p') /\
  (forall p', run (Eraser c 0 o) m p = Ok p' -> pa p' <= pa p).
Proof.
  intros c o m p Hc Ho Hm V.
  assert (frac 0) as F0 by (unfold frac, full; lia).
  destruct (C06_blend_exact_and_valid (Normal c o) m p) as (-> & _); cbn [ordinary_ok]; auto.
  destruct (C06_blend_exact_and_valid (Eraser c 0 o) m p) as (-> & _); cbn [ordinary_ok]; auto.
  destruct V as (Hr & _ & _ & Ha).
  unfold frac in *. rewrite fullE in *.
  destruct (opa_a_exact m o) as (_ & Ba); auto.
  split; intros p' E; inversion E; subst p'; unfold exact, composite; cbn [pa]; rewrite fullE;
    set (t := m * o / ONE) in *.
  - onez. assert ((pa p - t) * 32768 <= (32768 - t) * pa p) by nia.
    assert (pa p - t <= (32768 - t) * pa p / 32768); [|lia].
    apply Z.div_le_lower_bound; lia.
  - onez. rewrite Z.mul_0_r, Z.div_0_l by lia. rewrite Z.add_0_l.
    apply Z.div_le_upper_bound; nia.
Qed.
Print Assumptions C09_alpha_direction.

(** painting in normal mode moves each channel towards the brush colour: the
    result lies between the old value and the brush's *)
Theorem C09_normal_between : forall c o m p, colour_ok c -> frac o -> frac m -> valid p ->
  exists p', run (Normal c o) m p = Ok p' /\
    Z.min (cr c) (pr p) <= pr p' <= Z.max (cr c) (pr p) /\
    Z.min (cg c) (pg p) <= pg p' <= Z.max (cg c) (pg p) /\
    Z.min (cb c) (pb p) <= pb p' <= Z.max (cb c) (pb p).
Proof.
  intros c o m p Hc Ho Hm V.
  destruct (C06_blend_exact_and_valid (Normal c o) m p) as (-> & _); cbn [ordinary_ok]; auto.
  eexists. split; [reflexivity|].
  unfold frac in *. rewrite fullE in *. destruct (opa_a_exact m o) as (_ & Ba); auto.
  unfold exact, composite. rewrite fullE. cbn [pr pg pb]. set (t := m * o / ONE) in *.
  split; [|split]; apply avg_between; lia.
Qed.
Print Assumptions C09_normal_between.

(** For the eraser and for lock-alpha the brush's contribution is itself a
    rounded product; the result lies between the old value and the brush's up to
    one unit. *)
Definition near_between (x old new : Z) : Prop :=
  Z.min old new - 1 <= x <= Z.max old new.

Lemma near_avg : forall t s c old, 0 <= t <= ONE -> 0 <= s <= ONE -> 0 <= c <= ONE -> 0 <= old <= ONE ->
  near_between ((t * s / ONE * c + (ONE - t) * old) / ONE) old (s * c / ONE).
Proof.
  intros t s c old Ht Hs Hc Ho. unfold near_between. onez.
  destruct (div_bounds (t * s)) as (A0 & A1); [nia|].
  destruct (div_bounds (s * c)) as (B0 & B1); [nia|].
  set (u := t * s / 32768) in *. set (v := s * c / 32768) in *.
  split.
  - apply Z.div_le_lower_bound; [lia|].
    assert (t * v <= u * c + 32768).
    { assert (t * (v * 32768) <= t * (s * c)) by nia.
      assert (t * s * c <= (u * 32768 + 32768) * c) by nia. nia. }
    destruct (Z.min_spec old v) as [(? & ->)|(? & ->)]; nia.
  - apply Z.lt_succ_r. apply Z.div_lt_upper_bound; [lia|].
    assert (u * c * 32768 <= t * s * c) by nia.
    assert (t * (s * c) <= t * (v * 32768 + 32767)) by nia.
    assert (u * c <= t * v + 32767) by nia.
    destruct (Z.max_spec old v) as [(? & ->)|(? & ->)]; nia.
Qed.

Theorem C09_eraser_lock_between : forall c ca o m p,
  colour_ok c -> frac ca -> frac o -> frac m -> valid p ->
  (exists p', run (Eraser c ca o) m p = Ok p' /\
    near_between (pr p') (pr p) (ca * cr c / full) /\
    near_between (pg p') (pg p) (ca * cg c / full) /\
    near_between (pb p') (pb p) (ca * cb c / full)) /\
  (exists p', run (LockAlpha c o) m p = Ok p' /\
    near_between (pr p') (pr p) (pa p * cr c / full) /\
    near_between (pg p') (pg p) (pa p * cg c / full) /\
    near_between (pb p') (pb p) (pa p * cb c / full)).
Proof.
  intros c ca o m p Hc Hca Ho Hm V.
  destruct (C06_blend_exact_and_valid (Eraser c ca o) m p) as (-> & _); cbn [ordinary_ok]; auto.
  destruct (C06_blend_exact_and_valid (LockAlpha c o) m p) as (-> & _); cbn [ordinary_ok]; auto.
  destruct Hc as (Cr & Cg & Cb). destruct V as (V1 & V2 & V3 & V4).
  unfold frac in *. rewrite fullE in *. destruct (opa_a_exact m o) as (_ & Ba); auto.
  unfold exact, composite. rewrite fullE. cbv zeta. set (t := m * o / ONE) in *.
  split; eexists; (split; [reflexivity|]); cbn [pr pg pb]; (split; [|split]); apply near_avg; lia.
Qed.
Print Assumptions C09_eraser_lock_between.

(** that unit cannot be dropped: erasing towards the value already there may
    still lower it by one *)
Theorem C09_eraser_between_exact_refuted : exists c ca o m p p',
  colour_ok c /\ frac ca /\ frac o /\ frac m /\ valid p /\
  run (Eraser c ca o) m p = Ok p' /\
  pr p = ca * cr c / full /\ pr p' < pr p.
Proof.
  exists (mkRgb 32768 0 0), 3, 16384, 32768, (mkPx 3 0 0 3), (mkPx 2 0 0 2).
  unfold colour_ok, frac, valid, full. cbn [cr cg cb pr pg pb pa].
  repeat split; try lia.
Qed.

(** A stronger dab (mask times opacity) covers at least as much, and more
    coverage before gives at least as much after: alpha is monotone in the
    opacity, in the mask value and in the previous alpha. *)
Theorem C09_alpha_monotone : forall c o o' m m' p q p1 p2, colour_ok c ->
  frac o' -> frac m' -> 0 <= o <= o' -> 0 <= m <= m' -> valid p -> valid q -> pa p <= pa q ->
  run (Normal c o) m p = Ok p1 -> run (Normal c o') m' q = Ok p2 -> pa p1 <= pa p2.
Proof.
  intros c o o' m m' p q p1 p2 Hc Fo' Fm' Ho Hm V Vq Hpq E1 E2.
  assert (frac o /\ frac m) as (Fo & Fm) by (unfold frac in *; lia).
  destruct (C06_blend_exact_and_valid (Normal c o) m p) as (E1' & _); cbn [ordinary_ok]; auto.
  destruct (C06_blend_exact_and_valid (Normal c o') m' q) as (E2' & _); cbn [ordinary_ok]; auto.
  rewrite E1 in E1'; rewrite E2 in E2'. inversion E1'; inversion E2'; subst p1 p2.
  unfold exact, composite, frac in *. cbn [pa]. rewrite fullE in *.
  destruct V as (V1 & _ & _ & V). destruct Vq as (_ & _ & _ & Vq). rewrite fullE in *.
  assert (m * o / ONE <= m' * o' / ONE) as L.
  { apply Z.div_le_mono; [rewrite ONE_val; lia|]. apply Z.mul_le_mono_nonneg; lia. }
  destruct (opa_a_exact m o) as (_ & B1); auto. destruct (opa_a_exact m' o') as (_ & B2); auto.
  set (t := m * o / ONE) in *. set (u := m' * o' / ONE) in *. onez.
  replace (t + (32768 - t) * pa p / 32768) with ((t * 32768 + (32768 - t) * pa p) / 32768)
    by (rewrite Z.div_add_l by lia; reflexivity).
  replace (u + (32768 - u) * pa q / 32768) with ((u * 32768 + (32768 - u) * pa q) / 32768)
    by (rewrite Z.div_add_l by lia; reflexivity).
  apply Z.div_le_mono; [lia|].
  assert ((32768 - u) * pa p <= (32768 - u) * pa q) by nia. nia.
Qed.
Print Assumptions C09_alpha_monotone.

(** and erasing: the stronger the dab, the less is left *)
Theorem C09_erase_monotone : forall c o o' m m' p q p1 p2, colour_ok c ->
  frac o' -> frac m' -> 0 <= o <= o' -> 0 <= m <= m' -> valid p -> valid q -> pa q <= pa p ->
  run (Eraser c 0 o) m p = Ok p1 -> run (Eraser c 0 o') m' q = Ok p2 -> pa p2 <= pa p1.
Proof.
  intros c o o' m m' p q p1 p2 Hc Fo' Fm' Ho Hm V Vq Hpq E1 E2.
  assert (frac o /\ frac m) as (Fo & Fm) by (unfold frac in *; lia).
  assert (frac 0) as F0 by (unfold frac, full; lia).
  destruct (C06_blend_exact_and_valid (Eraser c 0 o) m p) as (E1' & _); cbn [ordinary_ok]; auto.
  destruct (C06_blend_exact_and_valid (Eraser c 0 o') m' q) as (E2' & _); cbn [ordinary_ok]; auto.
  rewrite E1 in E1'; rewrite E2 in E2'. inversion E1'; inversion E2'; subst p1 p2.
  unfold exact, composite, frac in *. cbn [pa]. rewrite fullE in *.
  destruct V as (_ & _ & _ & V). destruct Vq as (V1 & _ & _ & Vq). rewrite fullE in *.
  assert (m * o / ONE <= m' * o' / ONE) as L.
  { apply Z.div_le_mono; [rewrite ONE_val; lia|]. apply Z.mul_le_mono_nonneg; lia. }
  destruct (opa_a_exact m o) as (_ & B1); auto. destruct (opa_a_exact m' o') as (_ & B2); auto.
  set (t := m * o / ONE) in *. set (u := m' * o' / ONE) in *. onez.
  rewrite !Z.mul_0_r, Z.div_0_l, !Z.add_0_l by lia.
  apply Z.div_le_mono; [lia|].
  assert ((32768 - u) * pa q <= (32768 - u) * pa p) by nia. nia.
Qed.
Print Assumptions C09_erase_monotone.

Example C09_example :
  let c := mkRgb 1000 30000 32768 in let p := mkPx 500 600 700 8000 in
  colour_ok c /\ valid p /\
  run (Normal c 10000) 20000 p = Ok (mkPx 593 6075 6672 12613) /\
  run (Normal c 20000) 30000 p = Ok (mkPx 779 17028 18618 21839) /\
  run (Eraser c 0 10000) 20000 p = Ok (mkPx 406 488 569 6510).
Proof. cbv zeta. unfold colour_ok, frac, valid, full. cbn [cr cg cb pr pg pb pa].
  change (2 ^ 15) with 32768. repeat split; lia. Qed.

(** ** C07 *)

(** the modes that promise not to touch coverage; [LockAlphaPaint] for every
    possible result of the spectral mixing *)
Inductive keeps_alpha_mode : Type :=
| KLockAlpha (c : rgb)
| KLockAlphaPaint (mix : mix_oracle) (c : rgb)
| KColorize (c : rgb)
| KPosterize (levels : Z).

Definition run_keep (d : keeps_alpha_mode) (opacity m : Z) (p : pixel) : outcome pixel :=
  match d with
  | KLockAlpha c => blend_lock_alpha c opacity m p
  | KLockAlphaPaint mix c => blend_lock_alpha_paint mix c opacity m p
  | KColorize c => blend_color c opacity m p
  | KPosterize n => blend_posterize opacity n m p
  end.

(** whatever the pixel, colour, opacity and mask value *)
Theorem C07_alpha_unchanged : forall d opacity m p p',
  run_keep d opacity m p = Ok p' -> pa p' = pa p.
Proof.
  intros d o m p p'. destruct d as [c|mix c|c|n]; cbn [run_keep].
  - unfold blend_lock_alpha. intros E; inversion E; reflexivity.
  - unfold blend_lock_alpha_paint. destruct (pa p <=? 0).
    + unfold blend_lock_alpha. intros E; inversion E; reflexivity.
    + destruct (mix _ _ _ _ _) as [[x y] z]. intros E.
      destruct (paint_store x _); try discriminate. cbn [obind] in E.
      destruct (paint_store y _); try discriminate. cbn [obind] in E.
      destruct (paint_store z _); try discriminate. cbn [obind] in E.
      inversion E; reflexivity.
  - unfold blend_color. intros E.
    destruct (set_lum _ _); try discriminate. cbn [obind] in E.
    destruct (int_val _); try discriminate. cbn [obind] in E. inversion E; reflexivity.
  - unfold blend_posterize. intros E.
    destruct (posterize_chan n (pr p)); try discriminate. cbn [obind] in E.
    destruct (posterize_chan n (pg p)); try discriminate. cbn [obind] in E.
    destruct (posterize_chan n (pb p)); try discriminate. cbn [obind] in E.
    inversion E; reflexivity.
Qed.
Print Assumptions C07_alpha_unchanged.

Definition keep_ok (d : keeps_alpha_mode) : Prop :=
  match d with
  | KLockAlpha c | KLockAlphaPaint _ c | KColorize c => colour_ok c
  | KPosterize n => 1 <= n <= 128
  end.

(** a fully transparent pixel stays exactly as it was, and nothing goes wrong *)
Theorem C07_transparent_stays : forall d opacity m,
  keep_ok d -> frac opacity -> frac m ->
  run_keep d opacity m (mkPx 0 0 0 0) = Ok (mkPx 0 0 0 0).
Proof.
  intros d o m Hd Ho Hm.
  assert (valid (mkPx 0 0 0 0)) as V0 by (unfold valid, full; cbn [pr pg pb pa]; lia).
  assert (forall c o, colour_ok c -> frac o -> blend_lock_alpha c o m (mkPx 0 0 0 0) = Ok (mkPx 0 0 0 0)) as L.
  { intros c o0 Hc Ho0. destruct (C06_blend_exact_and_valid (LockAlpha c o0) m (mkPx 0 0 0 0)) as (E & _); cbn [ordinary_ok]; auto.
    cbn [run] in E. rewrite E. unfold exact, composite. cbn [pr pg pb pa]. rewrite fullE.
    rewrite !Z.mul_0_r. rewrite (Z.div_0_l ONE) by (rewrite ONE_val; lia).
    rewrite !Z.mul_0_l, Z.add_0_l, (Z.div_0_l ONE) by (rewrite ONE_val; lia). reflexivity. }
  assert (frac (Z.max o 150)) as Ho2 by (unfold frac, full in *; lia).
  unfold frac in Ho, Hm. rewrite fullE in *.
  destruct (opa_a_exact m o) as (Ea & Ba); auto.
  assert (forall a b, 0 <= a <= ONE -> mix_chan a b 0 0 = 0) as M0.
  { intros. unfold mix_chan. rewrite !Z.mul_0_r. reflexivity. }
  destruct d as [c|mix c|c|n]; cbn [run_keep keep_ok] in *.
  - apply L; auto.
  - unfold blend_lock_alpha_paint. cbn [pa]. change (0 <=? 0) with true. cbv iota. apply L; auto.
  - unfold blend_color. cbn [pr pg pb pa]. unfold unpremult. cbn [Z.eqb].
    destruct Hd as (Cr & Cg & Cb). unfold frac in *. rewrite fullE in *.
    destruct (set_lum_ok c (mkRgb 0 0 0)) as (s & -> & S1 & S2 & S3);
      cbn [cr cg cb]; unfold in15; auto; try (rewrite ONE_val; lia).
    cbn [obind]. rewrite int_val_ok by (unfold INT_MIN, INT_MAX; onez; nia). cbn [obind].
    rewrite !Z.mul_0_r. change (u16 (u32 0 / ONE)) with 0.
    rewrite !M0; auto. all: rewrite Z.quot_div_nonneg by (try (onez; nia); rewrite ONE_val; lia); lia.
  - unfold blend_posterize, posterize_chan. cbn [pr pg pb pa].
    destruct (Z.eqb_spec n 0); [lia|].
    change (2 * 0) with 0. rewrite Z.mul_0_l, Z.add_0_l. change (ONE / (2 * ONE)) with 0.
    rewrite Z.mul_0_r. rewrite int_val_ok by (unfold INT_MIN, INT_MAX; lia). cbn [obind].
    rewrite Z.quot_0_l by lia. change (u32 0) with 0. rewrite Ea, !M0; auto.
Qed.
Print Assumptions C07_transparent_stays.

Example C07_example :
  keep_ok (KColorize (mkRgb 32768 5000 0)) /\ frac 30000 /\ frac 32768 /\
  run_keep (KLockAlpha (mkRgb 32768 5000 0)) 30000 32768 (mkPx 1000 2000 3000 7000)
    = Ok (mkPx 6492 1146 253 7000) /\
  run_keep (KPosterize 5) 30000 32768 (mkPx 1000 2000 3000 7000) = Ok (mkPx 84 168 253 7000) /\
  exists r g b, run_keep (KColorize (mkRgb 32768 5000 0)) 30000 32768 (mkPx 1000 2000 3000 7000) = Ok (mkPx r g b 7000)
    /\ r <> 1000.
Proof.
  unfold keep_ok, colour_ok, frac, full. cbn [cr cg cb].
  repeat split; try lia; try (vm_compute; reflexivity).
  do 3 eexists. split; [vm_compute; reflexivity|lia].
Qed.

(** ** C08 *)

(** The full statement -- colorize and posterize always finish and keep pixels
    valid -- is false.

    Colorize: painting black on opaque white divides by zero; so does a dark
    grey; and an ordinary brown on opaque white gives channels above alpha. *)
Theorem C08_colorize_crashes_refuted : exists c p,
  colour_ok c /\ valid p /\ blend_color c full full p = UB.
Proof.
  exists (mkRgb 13 13 13), (mkPx 32768 32768 32768 32768).
  split; [unfold colour_ok, frac, full; cbn [cr cg cb]; lia|].
  split; [unfold valid, full; cbn [pr pg pb pa]; lia|]. vm_compute. reflexivity.
Qed.
Print Assumptions C08_colorize_crashes_refuted.

Theorem C08_black_on_white_refuted :
  blend_color (mkRgb 0 0 0) full full (mkPx full full full full) = UB.
Proof. vm_compute. reflexivity. Qed.

Theorem C08_colorize_invalid_refuted : exists c p p',
  colour_ok c /\ valid p /\ blend_color c full full p = Ok p' /\ ~ valid p'.
Proof.
  exists (mkRgb 24708 18907 10191), (mkPx 32768 32768 32768 32768), (mkPx 32768 32769 32770 32768).
  split; [unfold colour_ok, frac, full; cbn [cr cg cb]; lia|].
  split; [unfold valid, full; cbn [pr pg pb pa]; lia|].
  split; [vm_compute; reflexivity|]. unfold valid; cbn [pr pg pb pa]; lia.
Qed.
Print Assumptions C08_colorize_invalid_refuted.

(** Posterize rounds the premultiplied channels without regard to alpha. *)
Theorem C08_posterize_invalid_refuted : exists p p',
  valid p /\ blend_posterize full 1 full p = Ok p' /\ ~ valid p'.
Proof.
  exists (mkPx 17000 9000 6768 17000), (mkPx 32768 0 0 17000).
  split; [unfold valid, full; cbn [pr pg pb pa]; lia|].
  split; [vm_compute; reflexivity|]. unfold valid; cbn [pr pg pb pa]; lia.
Qed.
Print Assumptions C08_posterize_invalid_refuted.

(** What does hold: white -- all three channels equal to a non-zero alpha -- is
    the only pixel on which colorize can fail. *)
Definition pure_white (p : pixel) : Prop :=
  pa p <> 0 /\ pr p = pa p /\ pg p = pa p /\ pb p = pa p.

Lemma unpremult_ok : forall a c, 0 <= c <= a -> a <= ONE ->
  in15 (unpremult a c) /\ (unpremult a c = ONE -> c = a /\ a <> 0).
Proof.
  intros a c H Ha. unfold unpremult, in15. destruct (Z.eqb_spec a 0).
  - split; [rewrite ONE_val; lia|]. rewrite ONE_val; lia.
  - rewrite u32_small by (onez; nia).
    assert (0 <= ONE * c / a) by (apply Z.div_pos; onez; nia).
    assert (ONE * c / a <= ONE) by (apply Z.div_le_upper_bound; onez; nia).
    rewrite u16_small by (onez; lia). split; [lia|]. intros E. split; [|auto].
    assert (X := Z.mul_div_le (ONE * c) a ltac:(lia)). rewrite E in X. onez; nia.
Qed.

Lemma back_ok : forall s a, in15 s -> 0 <= a <= ONE -> 0 <= u16 (u32 (s * a) / ONE) <= a.
Proof.
  intros s a Hs Ha. unfold in15 in Hs. rewrite u32_small by (onez; nia).
  assert (X := scale_le a s ltac:(lia) Hs). rewrite Z.mul_comm in X.
  rewrite u16_small by (onez; lia). lia.
Qed.

Theorem C08_colorize_partial : forall c opacity m p,
  colour_ok c -> frac opacity -> frac m -> valid p -> ~ pure_white p ->
  exists p', blend_color c opacity m p = Ok p' /\ valid p'.
Proof.
  intros c o m p (Cr & Cg & Cb) Ho Hm V W. unfold valid, frac in *. rewrite fullE in *.
  destruct V as (V1 & V2 & V3 & V4).
  destruct (unpremult_ok (pa p) (pr p)) as (U1 & W1); auto.
  destruct (unpremult_ok (pa p) (pg p)) as (U2 & W2); auto.
  destruct (unpremult_ok (pa p) (pb p)) as (U3 & W3); auto.
  unfold blend_color.
  destruct (set_lum_ok c (mkRgb (unpremult (pa p) (pr p)) (unpremult (pa p) (pg p)) (unpremult (pa p) (pb p))))
    as (s & -> & S1 & S2 & S3); cbn [cr cg cb]; auto.
  { intros (X1 & X2 & X3). apply W. unfold pure_white.
    destruct (W1 X1), (W2 X2), (W3 X3). auto. }
  cbn [obind]. rewrite int_val_ok by (unfold INT_MIN, INT_MAX; onez; nia). cbn [obind].
  rewrite Z.quot_div_nonneg by (try (onez; nia); rewrite ONE_val; lia).
  destruct (opa_a_exact m o) as (_ & Ba); auto.
  set (t := m * o / ONE) in *. rewrite opa_b_exact by auto.
  pose proof (back_ok (cr s) (pa p) S1) as B1. pose proof (back_ok (cg s) (pa p) S2) as B2.
  pose proof (back_ok (cb s) (pa p) S3) as B3.
  set (x1 := u16 (u32 (cr s * pa p) / ONE)) in *.
  set (x2 := u16 (u32 (cg s * pa p) / ONE)) in *.
  set (x3 := u16 (u32 (cb s * pa p) / ONE)) in *.
  eexists. split; [reflexivity|]. cbn [pr pg pb pa].
  destruct (mix_exact t (ONE - t) x1 (pr p)) as (-> & ?); try lia.
  destruct (mix_exact t (ONE - t) x2 (pg p)) as (-> & ?); try lia.
  destruct (mix_exact t (ONE - t) x3 (pb p)) as (-> & ?); try lia.
  pose proof (avg_between t (ONE - t) x1 (pr p) 0 (pa p)).
  pose proof (avg_between t (ONE - t) x2 (pg p) 0 (pa p)).
  pose proof (avg_between t (ONE - t) x3 (pb p) 0 (pa p)). lia.
Qed.
Print Assumptions C08_colorize_partial.

(** Posterize never exceeds full scale and keeps opaque pixels valid (the
    number of levels is always 1..128, draw_dab clamps it). *)
Lemma posterize_range : forall n c, 1 <= n <= 128 -> 0 <= c <= ONE ->
  exists v, posterize_chan n c = Ok v /\ 0 <= v <= ONE.
Proof.
  intros n c Hn Hc. unfold posterize_chan. destruct (Z.eqb_spec n 0); [lia|].
  assert (0 <= (2 * c * n + ONE) / (2 * ONE) <= n).
  { onez. split; [apply Z.div_pos; lia|]. apply Z.lt_succ_r. apply Z.div_lt_upper_bound; nia. }
  set (k := (2 * c * n + ONE) / (2 * ONE)) in *. onez.
  rewrite int_val_ok by (unfold INT_MIN, INT_MAX; nia). cbn [obind].
  assert (0 <= Z.quot (32768 * k) n <= 32768) by (apply quot_bound; nia).
  rewrite u32_small by lia. eexists. split; [reflexivity|lia].
Qed.

Theorem C08_posterize_partial : forall n opacity m p,
  1 <= n <= 128 -> frac opacity -> frac m -> valid p ->
  exists p', blend_posterize opacity n m p = Ok p' /\
    frac (pr p') /\ frac (pg p') /\ frac (pb p') /\
    (pa p = full -> valid p').
Proof.
  intros n o m p Hn Ho Hm V. unfold valid, frac in *. rewrite fullE in *.
  destruct V as (V1 & V2 & V3 & V4). unfold blend_posterize.
  destruct (posterize_range n (pr p)) as (x1 & -> & X1); [lia|lia|].
  destruct (posterize_range n (pg p)) as (x2 & -> & X2); [lia|lia|].
  destruct (posterize_range n (pb p)) as (x3 & -> & X3); [lia|lia|].
  cbn [obind]. destruct (opa_a_exact m o) as (-> & Ba); auto.
  set (t := m * o / ONE) in *. rewrite opa_b_exact by auto.
  eexists. split; [reflexivity|]. cbn [pr pg pb pa].
  destruct (mix_exact t (ONE - t) x1 (pr p)) as (-> & ?); try lia.
  destruct (mix_exact t (ONE - t) x2 (pg p)) as (-> & ?); try lia.
  destruct (mix_exact t (ONE - t) x3 (pb p)) as (-> & ?); try lia.
Qed.
Print Assumptions C08_posterize_partial.

(** The integer formula of [posterize_chan] is what the floating-point
    expression in the source computes, for every channel value and number of
    levels. *)
Theorem C08_posterize_no_rounding_error : forall n c, 1 <= n <= 128 -> 0 <= c <= 65535 ->
  posterize_chan_float n c = posterize_chan n c.
Proof. exact posterize_float_exact. Qed.
Print Assumptions C08_posterize_no_rounding_error.

Example C08_example :
  let c := mkRgb 24708 18907 10191 in let p := mkPx 32768 32768 32767 32768 in
  colour_ok c /\ frac full /\ valid p /\ ~ pure_white p /\
  blend_color c full full p = Ok (mkPx 32768 32767 32766 32768) /\
  blend_posterize full 4 20000 (mkPx 10000 20000 3 32768) = Ok (mkPx 8896 17792 1 32768).
Proof.
  cbv zeta. unfold colour_ok, frac, valid, pure_white, full. cbn [cr cg cb pr pg pb pa].
  change (2 ^ 15) with 32768. repeat split; try lia; vm_compute; reflexivity.
Qed.
