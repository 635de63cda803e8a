(** Properties C10 and C41: the mask of a dab inside one 64x64 tile, and its
    opacity profile.  Everything about [float] here is bit exact; [value x] is
    the real number a finite float stands for. *)
From Verif Require Import Base F32 F32Proofs Blend BlendProofs Mask MaskProofs OpaProofs RrProofs MaskFloatProofs GapFloat.
From Coq Require Import Reals Lra Psatz.
From Flocq Require Import Core.Core IEEE754.BinarySingleNaN.

Definition value (x : f32) : R := B2R x.
Definition finite (x : f32) : Prop := is_finite x = true.
Definition between (lo : R) (x : f32) (hi : R) : Prop := finite x /\ (lo <= value x <= hi)%R.

(** The dabs considered: position within a million pixels of the tile, radius
    from 1/16 to a million, any hardness that is not zero or denormal, softness
    in [0,1], aspect ratio up to a million; the C library's cosine and sine are
    at most one in magnitude and their squares add up to one within 2^-16. *)
Record reasonable (trig : trig_oracle) (x y radius hardness softness aspect angle : f32) : Prop := {
  r_x : between (-1048576) x 1048576;
  r_y : between (-1048576) y 1048576;
  r_r : between (/ 16) radius 1048576;
  r_h : finite hardness /\ (Rpower 2 (-126) <= value hardness)%R;
  r_s : between 0 softness 1;
  r_a : between (-1048576) aspect 1048576;
  r_t : let (cs, sn) := trig angle in
        between (-1) cs 1 /\ between (-1) sn 1 /\
        (Rabs (value cs * value cs + value sn * value sn - 1) <= / 65536)%R }.

Lemma between_bd : forall x, between (-1048576) x 1048576 -> bd x 20.
Proof. intros x (F & H). split; auto. change (bpow radix2 20) with 1048576%R. apply Rabs_le. exact H. Qed.
Lemma between_bd0 : forall x, between (-1) x 1 -> bd x 0.
Proof. intros x (F & H). split; auto. change (bpow radix2 0) with 1%R. apply Rabs_le. exact H. Qed.

Lemma rpow126 : Rpower 2 (-126) = bpow radix2 (-126).
Proof.
  rewrite bpow_powerRZ. change (IZR radix2) with 2%R. rewrite <- powerRZ_Rpower by lra. reflexivity.
Qed.

Lemma reasonable_ok : forall trig x y r h s a angle,
  reasonable trig x y r h s a angle -> dab_ok trig x y r h s a angle.
Proof.
  intros trig x y r h s a angle [Hx Hy Hr Hh Hs Ha Ht].
  constructor; auto using between_bd.
  - destruct Hh as (F & H). split; auto. rewrite <- rpow126. exact H.
  - destruct (trig angle) as (cs, sn). destruct Ht as (A & B & C). split; [|split]; auto using between_bd0.
Qed.

Local Open Scope Z_scope.

(** ** C10 *)

(** Whenever the mask can be rendered at all: it fits its 4224 words, every
    word fits 16 bits, and there is one value [V i j] per pixel such that
    drawing with any per-pixel blend function changes exactly the pixels with
    [V i j <> 0], each by blending once with its own value.  [V] is zero outside
    the tile and outside the box [floor (x - r - 1), floor (x + r + 1)]; inside
    it is the computed opacity.  No access leaves the tile: the result is [Ok]
    as soon as the blends are. *)
Theorem C10_stamp_exact : forall trig x y radius hardness softness aspect angle mask,
  render_dab_mask trig x y radius hardness softness aspect angle = Ok mask ->
  Z.of_nat (length mask) <= 4224 /\ Forall (fun w => 0 <= w <= 65535) mask /\
  exists V x0 y0 x1 y1,
    dab_box x y radius = Ok (x0, y0, x1, y1) /\
    (forall i j, V i j <> 0 -> 0 <= i <= 63 /\ 0 <= j <= 63 /\ x0 <= i <= x1 /\ y0 <= j <= y1) /\
    (forall i j, x0 <= i <= x1 -> y0 <= j <= y1 ->
       mask_value trig x y radius (clampf hardness f0 f1) softness aspect angle i j = Ok (V i j)) /\
    forall blend rest tile, Z.of_nat (length tile) = 64 * 64 * 4 ->
      (forall tile', stamp blend (mask ++ rest) tile = Ok tile' ->
         Z.of_nat (length tile') = 64 * 64 * 4 /\
         forall i j, 0 <= i <= 63 -> 0 <= j <= 63 ->
           (V i j = 0 -> pixel_at tile' i j = pixel_at tile i j) /\
           (V i j <> 0 -> blend (V i j) (pixel_at tile i j) = Ok (pixel_at tile' i j))) /\
      ((forall i j, 0 <= i <= 63 -> 0 <= j <= 63 -> V i j <> 0 ->
          exists p, blend (V i j) (pixel_at tile i j) = Ok p) ->
       exists tile', stamp blend (mask ++ rest) tile = Ok tile').
Proof.
  intros trig x y radius hardness softness aspect angle mask H.
  unfold render_dab_mask in H. destruct (feq _ _); [discriminate|].
  destruct (dab_box x y radius) as [[[[x0 y0] x1] y1]| |] eqn:B; try discriminate. cbn [obind] in H.
  set (opa := mask_value trig x y radius (clampf hardness f0 f1) softness aspect angle) in *.
  assert (0 <= x0 /\ 0 <= y0 /\ x1 <= 63 /\ y1 <= 63) as (R1 & R2 & R3 & R4).
  { clear - B. unfold dab_box in B.
    repeat match goal with H : obind ?e _ = Ok _ |- _ => destruct e eqn:?; cbn [obind] in H; try discriminate end.
    injection B as <- <- <- <-. rewrite TILE_val. lia. }
  assert (forall i j v, opa i j = Ok v -> 0 <= v < 65536) as OR.
  { intros i j v E. unfold opa, mask_value, opa_u16, f_to_u16 in E. apply f_to_Z_inv in E. lia. }
  set (V := box_vals opa x0 y0 x1 y1).
  assert (Vals : forall i j, x0 <= i <= x1 -> y0 <= j <= y1 -> opa i j = Ok (V i j)).
  { intros i j Hi Hj. unfold V. rewrite box_vals_in by auto.
    destruct (encode_vals _ _ _ _ _ _ H i j Hi Hj) as (v & ->). reflexivity. }
  destruct (encode_inv opa V x0 y0 x1 y1 mask Vals H) as (EM & LEN).
  split; [exact LEN|]. split.
  { rewrite EM. apply final_words. intros i j Hi Hj. pose proof (OR _ _ _ (Vals i j Hi Hj)). lia. }
  exists V, x0, y0, x1, y1. split; auto. split.
  { intros i j NZ. destruct (Z_le_dec x0 i); [|exfalso; apply NZ; apply box_vals_out; lia].
    destruct (Z_le_dec i x1); [|exfalso; apply NZ; apply box_vals_out; lia].
    destruct (Z_le_dec y0 j); [|exfalso; apply NZ; apply box_vals_out; lia].
    destruct (Z_le_dec j y1); [|exfalso; apply NZ; apply box_vals_out; lia]. lia. }
  split; auto.
  intros blend rest tile L.
  destruct (stamp_encoded opa x0 y0 x1 y1 mask blend tile rest R1 R3 R2 R4 OR H L) as (S1 & S2).
  split.
  - intros tile' E. destruct (S1 tile' E) as (L' & P). split; [exact L'|].
    intros i j Hi Hj. specialize (P i j (conj Hi Hj)). fold V in P.
    destruct (Z.eqb_spec (V i j) 0); split; intros; auto; contradiction.
  - intros T. apply S2. intros i j (Hi & Hj) NZ. apply T; auto.
Qed.

(** For reasonable dabs of radius up to 22 the mask is always rendered (no
    overflow of the buffer, no undefined conversion), whatever their shape. *)
Theorem C10_fits_small : forall trig x y radius hardness softness aspect angle,
  reasonable trig x y radius hardness softness aspect angle -> (value radius <= 22)%R ->
  exists mask, render_dab_mask trig x y radius hardness softness aspect angle = Ok mask.
Proof.
  intros. apply render_small_ok; auto. apply reasonable_ok; auto.
Qed.

(** For larger dabs the per-pixel values are still all defined and at most
    2^15 ... *)
Theorem C10_values_defined : forall trig x y radius hardness softness aspect angle,
  reasonable trig x y radius hardness softness aspect angle ->
  exists x0 y0 x1 y1, dab_box x y radius = Ok (x0, y0, x1, y1) /\
    forall i j, x0 <= i <= x1 -> y0 <= j <= y1 ->
      exists v, mask_value trig x y radius (clampf hardness f0 f1) softness aspect angle i j = Ok v /\ 0 <= v <= 2 ^ 15.
Proof.
  intros trig x y r h s a angle H. apply reasonable_ok in H. pose proof H as [Bx By (Fr & Hr) _ _ _ _].
  destruct (dab_box_ok x y r Bx By Fr Hr) as (X0 & Y0 & X1 & Y1 & E & _).
  eexists _, _, _, _. split; [exact E|]. intros i j Hi Hj. eapply mask_value_ok; eauto.
Qed.

(** ... and the mask fits whenever no row of it has a hole (a zero between two
    non-zero values).  Missing for the full claim: that rounding noise cannot
    punch such holes for radius > 22; in exact arithmetic it cannot, see
    [C10_no_holes_in_exact_arithmetic]. *)
Theorem C10_fits_partial : forall trig x y radius hardness softness aspect angle,
  reasonable trig x y radius hardness softness aspect angle ->
  (forall x0 y0 x1 y1, dab_box x y radius = Ok (x0, y0, x1, y1) ->
     let val i j := mask_value trig x y radius (clampf hardness f0 f1) softness aspect angle i j in
     forall i j k row, x0 <= i -> i < j < k -> k <= x1 -> y0 <= row <= y1 ->
       val i row <> Ok 0 -> val k row <> Ok 0 -> val j row <> Ok 0) ->
  exists mask, render_dab_mask trig x y radius hardness softness aspect angle = Ok mask.
Proof.
  intros trig x y r h s a angle H G. apply reasonable_ok in H. pose proof H as [Bx By (Fr & Hr) _ _ _ _].
  destruct (dab_box_ok x y r Bx By Fr Hr) as (X0 & Y0 & X1 & Y1 & E & _).
  specialize (G _ _ _ _ E). cbv zeta in G.
  apply (render_no_gap_ok _ _ _ _ _ _ _ _ _ _ _ _ H E).
  set (x0 := Z.max X0 0) in *. set (y0 := Z.max Y0 0) in *. set (x1 := Z.min X1 63) in *. set (y1 := Z.min Y1 63) in *.
  set (opa := mask_value trig x y r (clampf h f0 f1) s a angle) in *.
  assert (In_box : forall i row, box_vals opa x0 y0 x1 y1 i row <> 0 -> x0 <= i <= x1 /\ y0 <= row <= y1).
  { intros i row NZ.
    destruct (Z_le_dec x0 i); [|exfalso; apply NZ; apply box_vals_out; lia].
    destruct (Z_le_dec i x1); [|exfalso; apply NZ; apply box_vals_out; lia].
    destruct (Z_le_dec y0 row); [|exfalso; apply NZ; apply box_vals_out; lia].
    destruct (Z_le_dec row y1); [|exfalso; apply NZ; apply box_vals_out; lia]. lia. }
  intros i j k row Ni Nk Hj.
  destruct (In_box _ _ Ni) as (B1 & B2). destruct (In_box _ _ Nk) as (B3 & _).
  assert (forall p, x0 <= p <= x1 -> box_vals opa x0 y0 x1 y1 p row <> 0 <-> opa p row <> Ok 0) as K.
  { intros p Hp. destruct (mask_value_ok _ _ _ _ _ _ _ _ p row _ _ _ _ H E Hp B2) as (v & Ev & _). fold opa in Ev.
    rewrite box_vals_in by auto. rewrite Ev. split; congruence. }
  apply K; [lia|]. apply (G i j k row); try lia; apply K; auto; lia.
Qed.

(** Up to radius 1010, which covers every radius the brush engine draws with
    (at most 1000.75), rounding cannot punch holes and the mask always fits.
    For radius above 22 this needs the opacity where the two segments of the
    profile meet, hardness times (1 - softness), not to be within a millionth of
    one unit of the mask, 2^-15. *)
Theorem C10_fits_engine_partial : forall trig x y radius hardness softness aspect angle,
  reasonable trig x y radius hardness softness aspect angle -> (value radius <= 1010)%R ->
  (value radius <= 22 \/ / 1000000 < Rabs (Rmin (value hardness) 1 * (1 - value softness) - / 32768))%R ->
  exists mask, render_dab_mask trig x y radius hardness softness aspect angle = Ok mask.
Proof.
  intros trig x y r h s a angle H Hr G.
  destruct (Rle_lt_dec (value r) 22) as [L|L]; [apply C10_fits_small; auto|]. destruct G as [G|G]; [lra|].
  pose proof (reasonable_ok _ _ _ _ _ _ _ _ H) as D. apply C10_fits_partial; auto.
  intros x0 y0 x1 y1 B val i j k row Hi Hj Hk Hrow. apply (rows_whole trig x y r h s a angle x0 y0 x1 y1); auto.
  - unfold value in *. lra.
  - destruct D as [_ _ _ (Fh & Hh) _ _ _]. destruct f1_val as (V1 & F1). destruct f0_val as (V0 & F0). pose proof (bpow_gt_0 radix2 (-126)) as P.
    unfold value in G. replace (b2r (clampf h f0 f1)) with (Rmin (B2R h) 1); [exact G|]. unfold clampf. rewrite !flt_spec by auto. rewrite V1, V0.
    destruct (Rlt_bool_spec 1 (b2r h)) as [K|K]; [rewrite V1; apply Rmin_right; apply Rlt_le; exact K|].
    rewrite Rlt_bool_false by lra. apply Rmin_left. exact K.
Qed.

(** ** C41 *)

(** squared distances as the code may produce them: finite and not negative, or
    +infinity *)
Definition distance2 (rr : f32) : Prop := (finite rr /\ (0 <= value rr)%R) \/ rr = B754_infinity false.
(** [rr1] is not farther out than [rr2] *)
Definition not_farther (rr1 rr2 : f32) : Prop := finite rr2 -> finite rr1 /\ (value rr1 <= value rr2)%R.
Definition hard_ok (h : f32) : Prop := finite h /\ (Rpower 2 (-126) <= value h <= 1)%R.

(** the mask value at squared distance [rr] *)
Definition opacity (hardness softness rr : f32) : outcome Z :=
  opa_u16 (calculate_opa rr hardness (segments hardness softness)).

Theorem C41_range : forall h s rr, hard_ok h -> between 0 s 1 -> distance2 rr ->
  exists v, opacity h s rr = Ok v /\ 0 <= v <= 2 ^ 15.
Proof.
  intros h s rr (Fh & Hh) (Fs & Hs) D. rewrite rpow126 in Hh. apply opa_u16_range; auto.
Qed.

Lemma rep32_up : forall x, rep32 x -> rep32 (x * 32768).
Proof.
  intros x Hx.
  assert (FLT_format radix2 (-149) 24 x) as F by (apply FLT_format_generic; [reflexivity|exact Hx]).
  destruct F as [f E M Ex]. destruct f as [m e]. unfold F2R in E. cbn [Fnum Fexp] in *.
  replace (x * 32768)%R with (IZR m * bpow radix2 (e + 15))%R.
  - apply rep32_scaled; [|lia]. change (radix2 ^ 24) with 16777216 in M. lia.
  - rewrite E, bpow_plus. change (bpow radix2 15) with 32768%R. ring.
Qed.

(** at the centre: the floor of (1 - softness) * 2^15, where 1 - softness is
    rounded to [float] *)
Theorem C41_centre : forall h s rr, hard_ok h -> between 0 s 1 -> finite rr -> value rr = 0%R ->
  exists v, opacity h s rr = Ok v /\ v = Zfloor (value (fsub f1 s) * 2 ^ 15) /\
    (Rabs (value (fsub f1 s) - (1 - value s)) <= / 2 ^ 24)%R.
Proof.
  intros h s rr (Fh & Hh) (Fs & Hs) F Z. rewrite rpow126 in Hh.
  assert (nonneg_f rr) as N by (left; split; auto; unfold value in Z; rewrite Z; lra).
  destruct (opa_range h s Fh Hh Fs Hs rr N) as (Fo & Ho).
  destruct (opa_u16_val _ Fo Ho) as (v & Ev & Vv).
  exists v. split; [exact Ev|].
  rewrite (opa_centre h s Fh Hh Fs Hs rr F Z) in Vv.
  destruct (o_val s Fs Hs) as (G & R).
  destruct f1_val as (V1 & F1).
  destruct (fsub_spec f1 s F1 Fs) as (Es & _).
  { rewrite V1. apply Rle_trans with (bpow radix2 0); [simpl; apply Rabs_le; unfold value in Hs; lra|apply bpow_le; lia]. }
  split.
  - rewrite Vv. unfold value. replace (2 ^ 15)%R with 32768%R by (simpl; lra).
    rewrite rnd32_id.
    + apply Ztrunc_floor. apply Rmult_le_pos; [tauto|lra].
    + apply rep32_up, rep32_b2r.
  - unfold value. rewrite Es, V1. replace (/ 2 ^ 24)%R with U by (unfold U; simpl; lra).
    apply rnd_unit_err. apply Rabs_le. unfold value in Hs. lra.
Qed.

(** at the rim and beyond: nothing (with hardness 1 the rim itself is painted) *)
Theorem C41_rim : forall h s rr, hard_ok h -> between 0 s 1 -> distance2 rr ->
  (finite rr -> (1 < value rr)%R \/ ((1 <= value rr)%R /\ (value h < 1)%R)) ->
  opacity h s rr = Ok 0.
Proof.
  intros h s rr (Fh & Hh) (Fs & Hs) D Rim. rewrite rpow126 in Hh.
  destruct (opa_range h s Fh Hh Fs Hs rr D) as (Fo & Ho).
  destruct (opa_u16_val _ Fo Ho) as (v & Ev & Vv).
  unfold opacity. rewrite Ev, Vv. f_equal.
  rewrite (opa_edge h s Fh Hh Fs Hs rr).
  - rewrite Rmult_0_l, rnd32_id by (apply (rep32_IZR 0); lia). apply (Ztrunc_IZR 0).
  - destruct D as [(F & _)|]; auto. left. split; auto. destruct (Rim F) as [?|(? & ?)]; unfold value in *; lra.
  - destruct D as [(F & _)|]; auto. destruct (Rim F) as [?|(? & ?)]; auto.
Qed.

(** going outwards, the mask value never grows by more than one unit (2^-15),
    and not at all inside one of the two segments of the profile *)
Theorem C41_decreasing_up_to_one_unit : forall h s rr1 rr2,
  hard_ok h -> between 0 s 1 -> distance2 rr1 -> distance2 rr2 -> not_farther rr1 rr2 ->
  exists v1 v2, opacity h s rr1 = Ok v1 /\ opacity h s rr2 = Ok v2 /\ v2 <= v1 + 1 /\
    (finite rr2 -> (value rr2 <= value h \/ value h < value rr1)%R -> v2 <= v1).
Proof.
  intros h s rr1 rr2 (Fh & Hh) (Fs & Hs) D1 D2 NF. rewrite rpow126 in Hh.
  apply opa_steps; auto.
Qed.

(** the exact claim "never increases" fails by that one unit: hardness
    11756543 / 2^25 = 0.350372, softness 0, one float step outwards across the
    segment border: 11480, then 11481 *)
Definition f25 (m : Z) : f32 := fdiv (f_of_Z m) (fmul (f_of_Z 2) (f_of_Z 16777216)).
Lemma f_of_Z_pow25 : B2R (fmul (f_of_Z 2) (f_of_Z 16777216)) = 33554432%R /\ finite (fmul (f_of_Z 2) (f_of_Z 16777216)).
Proof.
  destruct (f_of_Z_exact 2) as (E1 & F1); [lia|]. destruct (f_of_Z_exact 16777216) as (E2 & F2); [lia|].
  destruct (fmul_spec (f_of_Z 2) (f_of_Z 16777216) F1 F2) as (E & F).
  { rewrite E1, E2. apply Rle_trans with (bpow radix2 25); [simpl; rewrite Rabs_pos_eq; lra|apply bpow_le; lia]. }
  split; auto. rewrite E, E1, E2. replace (2 * 16777216)%R with (bpow radix2 25) by (simpl; lra).
  rewrite rnd32_id by (apply rep32_bpow; lia). simpl. lra.
Qed.
Theorem C41_never_increases_refuted : exists h s rr1 rr2 v1 v2,
  hard_ok h /\ between 0 s 1 /\ distance2 rr1 /\ distance2 rr2 /\ not_farther rr1 rr2 /\
  opacity h s rr1 = Ok v1 /\ opacity h s rr2 = Ok v2 /\ v1 < v2.
Proof.
  assert (forall m, (0 <= m <= 16777216)%Z -> finite (f25 m) /\ value (f25 m) = (IZR m * / 33554432)%R) as K.
  { intros m Hm. unfold f25, value, finite.
    destruct (f_of_Z_exact m) as (E1 & F1); [lia|]. destruct f_of_Z_pow25 as (E2 & F2).
    destruct (fdiv_spec (f_of_Z m) (fmul (f_of_Z 2) (f_of_Z 16777216)) F1) as (E & F).
    - rewrite E2. lra.
    - rewrite E1, E2. unfold Rdiv. rewrite Rabs_mult, (Rabs_pos_eq (IZR m)), (Rabs_pos_eq (/ 33554432)).
      + apply Rle_trans with (bpow radix2 0); [|apply bpow_le; lia]. simpl.
        assert (IZR m <= 16777216)%R by (apply (IZR_le m 16777216); lia). lra.
      + lra.
      + apply (IZR_le 0). lia.
    - split; auto. rewrite E, E1, E2. apply rnd32_id.
      replace (IZR m * / 33554432)%R with (IZR m * bpow radix2 (-25))%R by (simpl; lra). apply rep32_scaled; lia. }
  exists (f25 11756543), f0, (f25 11756543), (f25 11756544), 11480, 11481.
  destruct (K 11756543) as (F1 & V1); [lia|]. destruct (K 11756544) as (F2 & V2); [lia|].
  assert (L126 : (Rpower 2 (-126) <= / 4)%R).
  { rewrite rpow126. change (/ 4)%R with (bpow radix2 (-2)). apply bpow_le. lia. }
  split. { split; auto. rewrite V1. split; [lra|]. lra. }
  split. { split; [reflexivity|]. unfold value. simpl. lra. }
  split. { left. split; auto. rewrite V1. lra. }
  split. { left. split; auto. rewrite V2. lra. }
  split. { intros _. split; auto. rewrite V1, V2. lra. }
  split. { vm_compute. reflexivity. }
  split. { vm_compute. reflexivity. }
  reflexivity.
Qed.

(** ** The same profile in exact arithmetic *)

Local Open Scope R_scope.

(** [profile h s q]: the opacity at squared relative distance [q] *)
Definition profile (h s q : R) : R :=
  if Rlt_dec 1 q then 0
  else if Rle_dec q h then (1 - s) * (1 + q * (1 - / h))
  else (1 - s) * (h / (1 - h)) * (1 - q).

Theorem C41_exact_profile : forall h s, 0 < h <= 1 -> 0 <= s <= 1 ->
  profile h s 0 = 1 - s /\
  (forall q, 0 <= q -> 0 <= profile h s q <= 1 - s) /\
  (forall q1 q2, 0 <= q1 <= q2 -> profile h s q2 <= profile h s q1) /\
  (forall q, 1 < q -> profile h s q = 0) /\ (h < 1 -> profile h s 1 = 0).
Proof.
  intros h s Hh Hs.
  assert (1 <= / h) as Ih by (rewrite <- Rinv_1; apply Rinv_le_contravar; lra).
  assert (h * / h = 1) as Hi by (apply Rinv_r; lra).
  assert (Near : forall q, 0 <= q <= h -> h <= 1 + q * (1 - / h) <= 1).
  { intros q Hq. assert (q * (/ h - 1) <= h * (/ h - 1)) by (apply Rmult_le_compat_r; lra).
    assert (0 <= q * (/ h - 1)) by (apply Rmult_le_pos; lra). lra. }
  assert (Far : forall q, h <= q <= 1 -> h < 1 -> 0 <= h / (1 - h) * (1 - q) <= h).
  { intros q Hq Hh1. assert (0 < h / (1 - h)) by (apply Rdiv_lt_0_compat; lra).
    assert (h / (1 - h) * (1 - h) = h) by (field; lra).
    assert (h / (1 - h) * (1 - q) <= h / (1 - h) * (1 - h)) by (apply Rmult_le_compat_l; lra).
    split; [apply Rmult_le_pos; lra|lra]. }
  split; [|split; [|split; [|split]]].
  - unfold profile. destruct (Rlt_dec 1 0); [lra|]. destruct (Rle_dec 0 h); [ring|lra].
  - intros q Hq. unfold profile. destruct (Rlt_dec 1 q); [lra|]. destruct (Rle_dec q h).
    + specialize (Near q ltac:(lra)). split; [apply Rmult_le_pos; lra|].
      replace (1 - s) with ((1 - s) * 1) at 2 by ring. apply Rmult_le_compat_l; lra.
    + specialize (Far q ltac:(lra) ltac:(lra)). rewrite Rmult_assoc. split; [apply Rmult_le_pos; lra|].
      replace (1 - s) with ((1 - s) * 1) at 2 by ring. apply Rmult_le_compat_l; lra.
  - intros q1 q2 Hq. unfold profile. destruct (Rlt_dec 1 q2).
    { destruct (Rlt_dec 1 q1); [lra|]. destruct (Rle_dec q1 h).
      - specialize (Near q1 ltac:(lra)). apply Rmult_le_pos; lra.
      - specialize (Far q1 ltac:(lra) ltac:(lra)). rewrite Rmult_assoc. apply Rmult_le_pos; lra. }
    destruct (Rlt_dec 1 q1); [lra|]. destruct (Rle_dec q2 h), (Rle_dec q1 h); try lra.
    + apply Rmult_le_compat_l; [lra|]. assert (q1 * (/ h - 1) <= q2 * (/ h - 1)) by (apply Rmult_le_compat_r; lra). lra.
    + rewrite Rmult_assoc. apply Rmult_le_compat_l; [lra|].
      specialize (Near q1 ltac:(lra)). specialize (Far q2 ltac:(lra) ltac:(lra)). lra.
    + apply Rmult_le_compat_l; [|lra]. apply Rmult_le_pos; [lra|]. apply Rlt_le, Rdiv_lt_0_compat; lra.
  - intros q Hq. unfold profile. destruct (Rlt_dec 1 q); [auto|lra].
  - intros Hh1. unfold profile. destruct (Rlt_dec 1 1); [lra|]. destruct (Rle_dec 1 h); [lra|]. ring.
Qed.

(** squared relative distance of pixel (i, j) from the dab centre, in the
    rotated and stretched coordinates of the dab *)
Definition dist2 (x y r aspect cs sn : R) (i j : Z) : R :=
  let yy := IZR j + / 2 - y in
  let xx := IZR i + / 2 - x in
  let yyr := (yy * cs - xx * sn) * aspect in
  let xxr := yy * sn + xx * cs in
  (yyr * yyr + xxr * xxr) / (r * r).

(** In exact arithmetic no row of the mask has a hole. *)
Theorem C10_no_holes_in_exact_arithmetic : forall x y r aspect cs sn h s i j k row,
  0 < r -> 0 < h <= 1 -> 0 <= s <= 1 -> (i < j < k)%Z ->
  let V p := Zfloor (profile h s (dist2 x y r aspect cs sn p row) * 32768) in
  V i <> 0%Z -> V k <> 0%Z -> V j <> 0%Z.
Proof.
  intros x y r aspect cs sn h s i j k row Hr Hh Hs Hj V Ni Nk.
  assert (Pos : forall p, 0 <= dist2 x y r aspect cs sn p row).
  { intros p. unfold dist2. apply Rmult_le_pos; [|apply Rlt_le, Rinv_0_lt_compat; apply Rmult_lt_0_compat; lra].
    apply Rplus_le_le_0_compat; apply Rle_0_sqr. }
  destruct (C41_exact_profile h s Hh Hs) as (_ & Range & Mono & _).
  assert (Big : forall p, V p <> 0%Z -> 1 <= profile h s (dist2 x y r aspect cs sn p row) * 32768).
  { intros p N. unfold V in N. destruct (Range _ (Pos p)) as (A & _).
    assert (0 <= Zfloor (profile h s (dist2 x y r aspect cs sn p row) * 32768))%Z by (apply (Zfloor_lub 0); simpl; lra).
    assert (1 <= Zfloor (profile h s (dist2 x y r aspect cs sn p row) * 32768))%Z as L by lia.
    apply IZR_le in L. pose proof (Zfloor_lb (profile h s (dist2 x y r aspect cs sn p row) * 32768)). lra. }
  apply Big in Ni, Nk.
  (* convexity along the row *)
  assert (dist2 x y r aspect cs sn j row <= Rmax (dist2 x y r aspect cs sn i row) (dist2 x y r aspect cs sn k row)) as Conv.
  { set (A := dist2 x y r aspect cs sn i row). set (B := dist2 x y r aspect cs sn j row). set (C := dist2 x y r aspect cs sn k row).
    assert (IZR i < IZR j < IZR k) as (L1 & L2) by (split; apply IZR_lt; lia).
    set (a := IZR j - IZR i) in *. set (b := IZR k - IZR j) in *.
    assert (0 < a) by (unfold a; lra). assert (0 < b) by (unfold b; lra).
    assert ((a + b) * B <= b * A + a * C) as Q.
    { unfold A, B, C, dist2. cbv zeta.
      assert (0 < / (r * r)) as W by (apply Rinv_0_lt_compat, Rmult_lt_0_compat; lra).
      unfold Rdiv. set (w := / (r * r)) in *.
      replace (IZR i) with (IZR j - a) by (unfold a; ring). replace (IZR k) with (IZR j + b) by (unfold b; ring).
      apply Rminus_le.
      match goal with |- ?e <= 0 => replace e with (- (a * b * (a + b) * ((sn * aspect) * (sn * aspect) + cs * cs) * w)) by ring end.
      assert (0 <= a * b * (a + b) * ((sn * aspect) * (sn * aspect) + cs * cs) * w); [|lra].
      apply Rmult_le_pos; [|lra]. apply Rmult_le_pos; [apply Rmult_le_pos; [apply Rmult_le_pos|]; lra|].
      apply Rplus_le_le_0_compat; apply Rle_0_sqr. }
    pose proof (Rmax_l A C). pose proof (Rmax_r A C). set (M := Rmax A C) in *.
    assert (b * A <= b * M) by (apply Rmult_le_compat_l; lra).
    assert (a * C <= a * M) by (apply Rmult_le_compat_l; lra).
    apply (Rmult_le_reg_l (a + b)); lra. }
  assert (1 <= profile h s (dist2 x y r aspect cs sn j row) * 32768) as G.
  { apply Rle_trans with (profile h s (Rmax (dist2 x y r aspect cs sn i row) (dist2 x y r aspect cs sn k row)) * 32768).
    - apply Rmax_case; auto.
    - apply Rmult_le_compat_r; [lra|]. apply Mono. split; auto. }
  unfold V. assert (1 <= Zfloor (profile h s (dist2 x y r aspect cs sn j row) * 32768))%Z by (apply Zfloor_lub; simpl; lra).
  lia.
Qed.

Local Open Scope Z_scope.

(** ** Concrete cases *)

Definition flat : trig_oracle := fun _ => (f1, f0).
Definition fz := f_of_Z.

(** a dab of radius 5 at (10, 12.5) in the tile, hardness 1/2: 98 words *)
Example C10_case : exists mask,
  render_dab_mask flat (fz 10) (flit 25 2) (fz 5) (flit 1 2) f0 f1 f0 = Ok mask /\
  length mask = 98%nat /\ mask_value flat (fz 10) (flit 25 2) (fz 5) (flit 1 2) f0 f1 f0 9 12 = Ok 32440.
Proof. eexists. split; [vm_compute; reflexivity|]. split; vm_compute; reflexivity. Qed.

(** such dabs are [reasonable] *)
Example C10_reasonable : reasonable flat (fz 10) (fz 12) (fz 5) f1 f0 (fz 3) f0.
Proof.
  assert (K : forall z, Z.abs z <= 16777216 -> finite (fz z) /\ value (fz z) = IZR z).
  { intros z Hz. destruct (f_of_Z_exact z Hz). auto. }
  destruct f1_val as (V1 & F1). destruct f0_val as (V0 & F0).
  constructor.
  - destruct (K 10) as (F & V); [lia|]. split; auto. rewrite V. lra.
  - destruct (K 12) as (F & V); [lia|]. split; auto. rewrite V. lra.
  - destruct (K 5) as (F & V); [lia|]. split; auto. rewrite V. lra.
  - split; [exact F1|]. unfold value. rewrite V1, rpow126. change 1%R with (bpow radix2 0). apply bpow_le. lia.
  - split; [exact F0|]. unfold value. rewrite V0. lra.
  - destruct (K 3) as (F & V); [lia|]. split; auto. rewrite V. lra.
  - cbn [flat]. unfold between, value. rewrite V0, V1.
    repeat split; try assumption; try lra. replace (1 * 1 + 0 * 0 - 1)%R with 0%R by ring. rewrite Rabs_R0. lra.
Qed.

(** ... and so are large ones meeting the last hypotheses *)
Example C10_reasonable_large : reasonable flat (fz 10) (fz (-300)) (fz 1000) f1 f0 (fz 3) f0 /\
  (22 < value (fz 1000) <= 1010)%R /\ (/ 1000000 < Rabs (Rmin (value f1) 1 * (1 - value f0) - / 32768))%R /\
  mask_value flat (fz 10) (fz (-300)) (fz 1000) f1 f0 (fz 3) f0 10 5 = Ok 32768.
Proof.
  assert (K : forall z, Z.abs z <= 16777216 -> finite (fz z) /\ value (fz z) = IZR z).
  { intros z Hz. destruct (f_of_Z_exact z Hz). auto. }
  destruct f1_val as (V1 & F1). destruct f0_val as (V0 & F0).
  split; [|split; [|split; [|vm_compute; reflexivity]]].
  - constructor.
    + destruct (K 10) as (F & V); [lia|]. split; auto. rewrite V. lra.
    + destruct (K (-300)) as (F & V); [lia|]. split; auto. rewrite V. lra.
    + destruct (K 1000) as (F & V); [lia|]. split; auto. rewrite V. lra.
    + split; [exact F1|]. unfold value. rewrite V1, rpow126. change 1%R with (bpow radix2 0). apply bpow_le. lia.
    + split; [exact F0|]. unfold value. rewrite V0. lra.
    + destruct (K 3) as (F & V); [lia|]. split; auto. rewrite V. lra.
    + cbn [flat]. unfold between, value. rewrite V0, V1.
      split; [split; [exact F1|lra]|]. split; [split; [exact F0|lra]|]. replace (1 * 1 + 0 * 0 - 1)%R with 0%R by ring. rewrite Rabs_R0. lra.
  - destruct (K 1000) as (_ & ->); [lia|]. lra.
  - unfold value. rewrite V1, V0, Rmin_left by lra. rewrite Rabs_pos_eq by lra. lra.
Qed.

Example C41_case : opacity (flit 1 2) (flit 1 4) f0 = Ok 24576 /\ opacity (flit 1 2) (flit 1 4) (flit 3 4) = Ok 6144 /\
  opacity (flit 1 2) (flit 1 4) f1 = Ok 0.
Proof. vm_compute. auto. Qed.

Print Assumptions C10_stamp_exact.
Print Assumptions C10_fits_small.
Print Assumptions C10_fits_engine_partial.
Print Assumptions C41_decreasing_up_to_one_unit.
