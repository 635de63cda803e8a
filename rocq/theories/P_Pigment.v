(** Property C51: what pigment painting computes.

    Pigment painting is meant to mix colours like paint: both colours are spread
    over ten bands of light, the reflectances of each band are averaged
    geometrically with the weights of the two colours, and the ten averages are
    seen as a colour again.  The code does this with 32-bit floats and bit tricks
    for the logarithm and the power.  Here its result is compared with the ideal. *)
From Verif Require Import Base F32 F32Proofs Blend BlendProofs OpaProofs RrProofs P_Blend Arith Color Spectral Paint PaintProofs P_Paint PigmentLog PigmentMix PigmentStore.
From Verif Require P_Spectral.
From Coq Require Import Reals Lra.
From Flocq Require Import Core.Core IEEE754.BinarySingleNaN.
Local Open Scope R_scope.

(** ** The ideal, over the real numbers *)
Definition tint : Type := (R * R * R)%type.

(** how much pure red, green and blue reflect in each band, in units of 10^-15
    (helpers.c 47-59) *)
Definition red_bands : list Z := [9281362787953; 9732627042016; 11254252737167; 15105578649573; 24797924177217; 83622585502406; 977865045723212; 1000000000000000; 999961046144372; 999999992756822]%Z.
Definition green_bands : list Z := [2854127435775; 3917589679914; 12132151699187; 748259205918013; 1000000000000000; 865695937531795; 37477469241101; 22816789725717; 21747419446456; 21384940572308]%Z.
Definition blue_bands : list Z := [537052150373386; 546646402401469; 575501819073983; 258778829633924; 41709923751716; 12662638828324; 7485593127390; 6766900622462; 6699764779016; 6676219883241]%Z.
(** what each band contributes to red, green and blue (helpers.c 38-45) *)
Definition red_sense : list Z := [26595621243689; 49779426257903; 22449850859496; -218453689278271; -256894883201278; 445881722194840; 772365886289756; 194498761382537; 14038157587820; 7687264480513]%Z.
Definition green_sense : list Z := [-32601672674412; -61021043498478; -52490001018404; 206659098273522; 572496335158169; 317837248815438; -21216624031211; -19387668756117; -1521339050858; -835181622534]%Z.
Definition blue_sense : list Z := [339475473216284; 635401374177222; 771520797089589; 113222640692379; -55251113343776; -48222578468680; -12966666339586; -1523814504223; -94718948810; -51604594741]%Z.
Definition unit15 (n : Z) : R := IZR n / 1000000000000000.

Definition bounded (x : R) : R := Rmax 0 (Rmin 1 x).
(** black reflects a thousandth *)
Definition lift (x : R) : R := 999 / 1000 * x + 1 / 1000.
Definition unlift (x : R) : R := (x - 1 / 1000) / (999 / 1000).
Definition bands (c : tint) : list R :=
  let '(r, g, b) := c in
  map (fun q => let '(nr, (ng, nb)) := q in unit15 nr * lift r + unit15 ng * lift g + unit15 nb * lift b)
      (combine red_bands (combine green_bands blue_bands)).
Fixpoint weigh (sense : list Z) (sp : list R) : R :=
  match sense, sp with
  | n :: sense, x :: sp => unit15 n * x + weigh sense sp
  | _, _ => 0
  end.
Definition colour_of (sp : list R) : tint :=
  (bounded (unlift (weigh red_sense sp)), bounded (unlift (weigh green_sense sp)), bounded (unlift (weigh blue_sense sp))).
(** the weighted geometric mean: [s] of [a], the rest of [b] *)
Definition blended (s : R) (a b : tint) : tint :=
  colour_of (map (fun q => Rpower (fst q) s * Rpower (snd q) (1 - s)) (combine (bands a) (bands b))).

(** ** What a dab should leave *)
Definition ratio (a b : Z) : R := IZR a / IZR b.
Definition paint_of (d : ordinary) : rgb := match d with Normal c _ | Eraser c _ _ | LockAlpha c _ => c end.
Definition brush_tint (d : ordinary) : tint := let c := paint_of d in (ratio (cr c) full, ratio (cg c) full, ratio (cb c) full).
Definition canvas_tint (p : pixel) : tint := (ratio (pr p) (pa p), ratio (pg p) (pa p), ratio (pb p) (pa p)).

(** the weight of the brush colour: the paint put down against the paint there
    afterwards; an eraser brush has only part of it *)
Definition brush_share (d : ordinary) (m : Z) (p : pixel) : R :=
  let under t := ((full - t) * pa p / full)%Z in
  match d with
  | Normal c o => let t := (m * o / full)%Z in ratio t (t + under t)
  | Eraser c ca o => let t := (m * o / full)%Z in ratio t (t + under t) * ratio ca full
  | LockAlpha c o => let t := (m * o / full)%Z in let t' := (t * pa p / full)%Z in ratio t' (t' + under t)
  end.
(** how much of the colour is mixed as pigment, the rest is averaged; only the
    eraser does this, and by the coverage of the canvas *)
Definition as_pigment (d : ordinary) (p : pixel) : R :=
  match d with
  | Eraser _ _ _ => let b := 8 * ratio (pa p) full - 3 in bounded (1 / 2 + b / (1 + 165 / 100 * Rabs b))
  | _ => 1
  end.
Definition ideal (d : ordinary) (m : Z) (p : pixel) : tint :=
  let '(x, y, z) := blended (brush_share d m p) (brush_tint d) (canvas_tint p) in
  let w := as_pigment d p in
  let q := exact d m p in
  (w * (IZR (pa q) * x) + (1 - w) * IZR (pr q), w * (IZR (pa q) * y) + (1 - w) * IZR (pg q), w * (IZR (pa q) * z) + (1 - w) * IZR (pb q)).
Definition near (e : R) (p : pixel) (c : tint) : Prop :=
  let '(x, y, z) := c in Rabs (IZR (pr p) - x) <= e /\ Rabs (IZR (pg p) - y) <= e /\ Rabs (IZR (pb p) - z) <= e.

(** ** The model's real arithmetic is the ideal *)
Lemma bands_is : forall c, P_Spectral.reflectances c = bands c.
Proof.
  intros [[r g] b]. unfold P_Spectral.reflectances, rgb_to_spectral, wgm_offset, WGM_EPSILON, spectral_r_small, spectral_g_small, spectral_b_small, bands, red_bands, green_bands, blue_bands.
  cbn [combine map mixR nar wid nadd nsub nmul nofZ dec sng dbl numR car]. unfold unit15, lift.
  repeat (apply f_equal2; [cbn [mixR nar wid nadd nsub nmul nofZ dec sng dbl numR car]; lra|]). reflexivity.
Qed.
Lemma colour_is : forall sp, length sp = 10%nat -> P_Spectral.seen sp = colour_of sp.
Proof.
  intros sp L. do 10 (destruct sp as [|? sp]; [discriminate L|]). destruct sp; [|discriminate L].
  unfold P_Spectral.seen, spectral_to_rgb, colour_of. cbv zeta. rewrite !clampR_is. unfold bounded, unlift, dot, wgm_offset, WGM_EPSILON, T_matrix_r, T_matrix_g, T_matrix_b, weigh, red_sense, green_sense, blue_sense.
  cbn [combine map fold_left fst snd mixR nar wid nadd nsub nmul ndiv nofZ dec sng dbl numR car]. unfold unit15.
  apply f_equal2; [apply f_equal2|]; apply (f_equal (fun x => Rmax 0 (Rmin 1 x))); replace (1 - 1 / 1000) with (999 / 1000) by lra; apply (f_equal (fun x => x / (999 / 1000))); lra.
Qed.
Lemma mixture_is : forall s a b, P_Spectral.seen (P_Spectral.mixture Rpower a b s) = blended s a b.
Proof.
  intros s a b. unfold blended. rewrite <- !bands_is. apply colour_is. destruct a as [[? ?] ?], b as [[? ?] ?]. reflexivity.
Qed.
Lemma blended_range : forall s a b, let '(x, y, z) := blended s a b in 0 <= x <= 1 /\ 0 <= y <= 1 /\ 0 <= z <= 1.
Proof.
  assert (forall x, 0 <= bounded x <= 1) as K.
  { intros x. unfold bounded, Rmax, Rmin. destruct (Rle_dec 1 x); [destruct (Rle_dec 0 1); lra|]. destruct (Rle_dec 0 x); lra. }
  intros s a b. unfold blended, colour_of. auto.
Qed.

(** the mixing as the oracle of the blend modes *)
Lemma mix_near : forall col p oa ob ca, (0 <= cr col <= ONE)%Z -> (0 <= cg col <= ONE)%Z -> (0 <= cb col <= ONE)%Z ->
  (0 <= pr p <= pa p)%Z -> (0 <= pg p <= pa p)%Z -> (0 <= pb p <= pa p)%Z -> (1 <= pa p <= ONE)%Z ->
  (0 <= oa <= ONE)%Z -> (0 <= ob <= ONE)%Z -> (oa + ob * pa p / ONE <= ONE)%Z -> (0 <= ca <= ONE)%Z -> (1 <= oa + ob * pa p / ONE)%Z ->
  exists x y z X Y Zz, paint_mix col p oa ob ca = (x, y, z) /\ iv 0 x 1 /\ iv 0 y 1 /\ iv 0 z 1 /\
    blended (ratio oa (oa + ob * pa p / ONE) * ratio ca ONE) (ratio (cr col) full, ratio (cg col) full, ratio (cb col) full) (canvas_tint p) = (X, Y, Zz) /\
    ap x X (9 / 10000) /\ ap y Y (9 / 10000) /\ ap z Zz (9 / 10000) /\ 0 <= X <= 1 /\ 0 <= Y <= 1 /\ 0 <= Zz <= 1.
Proof.
  intros col p oa ob ca H1 H2 H3 H4 H5 H6 H7 H8 H9 H10 H11 H12.
  destruct (mix_ok col p oa ob ca H1 H2 H3 H4 H5 H6 H7 H8 H9 H11 H12) as (x & y & z & E & Hx & Hy & Hz).
  destruct (spectral_mix_close col p oa ob ca H1 H2 H3 H4 H5 H6 H7 (proj1 H8) (proj1 H9) H10 (proj2 H9) H11 H12) as (c & E' & W).
  rewrite E in E'. injection E' as <-. rewrite mixture_is in W.
  change (brush_c col) with (ratio (cr col) full, ratio (cg col) full, ratio (cb col) full) in W. change (canvas_c p) with (canvas_tint p) in W.
  change (part oa (oa + ob * pa p / ONE) * part ca ONE) with (ratio oa (oa + ob * pa p / ONE) * ratio ca ONE) in W.
  pose proof (blended_range (ratio oa (oa + ob * pa p / ONE) * ratio ca ONE) (ratio (cr col) full, ratio (cg col) full, ratio (cb col) full) (canvas_tint p)) as R.
  destruct (blended _ _ _) as [[X Y] Zz]. destruct W as (W1 & W2 & W3). destruct R as (R1 & R2 & R3).
  exists x, y, z, X, Y, Zz. unfold paint_mix. rewrite E. repeat (split; [auto; fail|]). auto.
Qed.
Lemma ratio_one : ratio ONE ONE = 1.
Proof. unfold ratio. change ONE with 32768%Z. lra. Qed.

(** Every valid pixel with something in it, mask value and setting (except the
    faintest pixels under lock-alpha, see C48): the result of pigment painting is
    the ideal one up to 9/10000 of the alpha (less than a quarter of an 8-bit
    step) plus the rounding to integers. *)
Theorem C51_pigment_accurate : forall d m p,
  ordinary_ok d -> frac m -> valid p -> (0 < pa p)%Z -> ~ too_faint d m p ->
  exists p', run_pigment d m p = Ok p' /\ pa p' = pa (exact (lifted d) m p) /\
    near (9 / 10000 * IZR (pa p') + 5 / 4) p' (ideal (lifted d) m p).
Proof.
  intros d m p Hd Hm Vp P0 NF. pose proof (lifted_ok d Hd) as Hl.
  destruct (C48_pigment_valid_partial d m p Hd Hm Vp NF) as (p' & E & (V1 & V2 & V3 & V4) & A). exists p'. split; [exact E|]. split; [exact A|].
  destruct (C06_blend_exact_and_valid (lifted d) m p Hl Hm Vp) as (_ & VX).
  pose proof Vp as (Hr & Hg & Hb & Ha). unfold frac in Hm. rewrite fullE in *.
  assert (0 <= IZR (pa p')) as A0 by (apply IZR_le; lia).
  destruct d as [c o|c ca o|c o]; cbn [run_pigment] in E.
  - cbn [lifted ordinary_ok] in Hl. destruct Hl as ((Cr & Cg & Cb) & Ho). unfold frac in *. rewrite fullE in *.
    destruct (opa_a_exact m (Z.max o 150) Hm Ho) as (Ea & Ba).
    unfold blend_normal_paint in E. cbv zeta in E. replace (pa p <=? 0)%Z with false in E by lia.
    unfold ideal. cbn [lifted exact pa pr pg pb composite as_pigment brush_share] in *. rewrite fullE in *. rewrite Ea in E. set (t := (m * Z.max o 150 / ONE)%Z) in *. rewrite opa_b_exact in E by auto.
    destruct (alpha_exact t (ONE - t) (pa p)) as (Eal & Bx); try lia. rewrite Eal in E.
    assert (1 <= t + (ONE - t) * pa p / ONE)%Z as D1.
    { destruct (Z.eq_dec t 0) as [->|]; [rewrite Z.sub_0_r, Z.mul_comm, Z.div_mul by (onez; lia); lia|].
      assert (0 <= (ONE - t) * pa p / ONE)%Z by (apply Z.div_pos; onez; nia). lia. }
    destruct (mix_near c p t (ONE - t) ONE) as (x & y & z & X & Y & Zz & Em & Hx & Hy & Hz & Eb & Kx & Ky & Kz & RX & RY & RZ); try (onez; lia).
    rewrite Em in E. rewrite ratio_one, Rmult_1_r in Eb. unfold brush_tint. cbn [paint_of]. cbv zeta. rewrite Eb.
    set (a := (t + (ONE - t) * pa p / ONE)%Z) in *. onez.
    destruct (paint_store x a) as [r'| |] eqn:Er; try discriminate E. destruct (paint_store y a) as [g'| |] eqn:Eg; try discriminate E. destruct (paint_store z a) as [b'| |] eqn:Eb'; try discriminate E.
    cbn [obind] in E. injection E as <-. cbn [pr pg pb pa near] in *.
    pose proof (store_close x X a r' Hx Kx ltac:(lia) Er) as S1. pose proof (store_close y Y a g' Hy Ky ltac:(lia) Eg) as S2. pose proof (store_close z Zz a b' Hz Kz ltac:(lia) Eb') as S3.
    replace (1 - 1) with 0 by ring. rewrite !Rmult_1_l, !Rmult_0_l, !Rplus_0_r. repeat split; lra.
  - cbn [lifted ordinary_ok] in Hl. destruct Hl as ((Cr & Cg & Cb) & Hca & Ho). unfold frac in *. rewrite fullE in *.
    destruct (opa_a_exact m o Hm Ho) as (Ea & Ba). unfold ideal. cbn [lifted exact pa pr pg pb composite as_pigment brush_share] in *. rewrite fullE in *.
    destruct VX as (X1 & X2 & X3 & X4). cbn [pr pg pb pa composite] in *. rewrite fullE in *.
    unfold blend_eraser_paint in E. cbv zeta in E. rewrite Ea in E. set (t := (m * o / ONE)%Z) in *. rewrite opa_b_exact in E by auto.
    rewrite (u32_small (t * ca)) in E by (onez; nia). pose proof (scale_le t ca (proj1 Ba) Hca) as S. set (t2 := (t * ca / ONE)%Z) in *.
    destruct (alpha_exact t2 (ONE - t) (pa p)) as (_ & AX); try lia.
    assert (u32 (t2 + u32 ((ONE - t) * pa p) / ONE) = t2 + (ONE - t) * pa p / ONE)%Z as Eu.
    { rewrite (u32_small (_ * _)) by (onez; nia). apply u32_small. onez. lia. }
    rewrite Eu in E. clear Eu. set (u := (t2 + (ONE - t) * pa p / ONE)%Z) in *.
    assert (forall cc q, (0 <= cc <= ONE)%Z -> (0 <= q <= pa p)%Z -> (u32 (u32 (t2 * cc) + u32 ((ONE - t) * q)) / ONE = (t2 * cc + (ONE - t) * q) / ONE)%Z) as Add.
    { intros cc q Hcc Hq. rewrite (u32_small (t2 * cc)), (u32_small (_ * q)) by (onez; nia). rewrite u32_small by (onez; nia). reflexivity. }
    rewrite (Add (cr c) (pr p)), (Add (cg c) (pg p)), (Add (cb c) (pb p)) in E by auto. clear Add.
    set (r1 := ((t2 * cr c + (ONE - t) * pr p) / ONE)%Z) in *. set (g1 := ((t2 * cg c + (ONE - t) * pg p) / ONE)%Z) in *. set (b1 := ((t2 * cb c + (ONE - t) * pb p) / ONE)%Z) in *.
    replace (negb (pa p =? 0)%Z) with true in E by (destruct (Z.eqb_spec (pa p) 0); [lia|reflexivity]).
    pose proof (factor_close (pa p) ltac:(onez; lia)) as FC. change (fdiv (f_of_Z (pa p)) (f_of_Z 32768)) with (fdiv (f_of_Z (pa p)) (f_of_Z ONE)) in FC.
    assert (iv 0 (clampf (spectral_blend_factor (fdiv (f_of_Z (pa p)) (f_of_Z ONE))) f0 f1) 1) as Hsf by (apply clamp_unit, factor_fin, fdiv_share; onez; lia).
    set (sf := clampf _ f0 f1) in *. clearbody sf.
    change (bounded (1 / 2 + (8 * ratio (pa p) ONE - 3) / (1 + 165 / 100 * Rabs (8 * ratio (pa p) ONE - 3)))) with (sigmoid (part (pa p) 32768)).
    pose proof (sigmoid_range (part (pa p) 32768)) as Rw. set (w := sigmoid (part (pa p) 32768)) in *. clearbody w.
    destruct (mix_near c p t (ONE - t) ca) as (x & y & z & X & Y & Zz & Em & Hx & Hy & Hz & Eb & Kx & Ky & Kz & RX & RY & RZ); try (onez; lia).
    { assert ((ONE - t) * pa p / ONE <= (ONE - t))%Z by (apply Z.div_le_upper_bound; onez; nia). lia. }
    { destruct (Z.eq_dec t 0) as [->|]; [rewrite Z.sub_0_r, Z.mul_comm, Z.div_mul by (onez; lia); lia|].
      assert (0 <= (ONE - t) * pa p / ONE)%Z by (apply Z.div_pos; onez; nia). lia. }
    rewrite Em in E. unfold brush_tint. cbn [paint_of]. cbv zeta. rewrite Eb. clear Em Eb.
    set (af := f_of_d (dsub (d_of_Z 1) (d_of_f sf))) in *.
    assert (exists r0 g0 b0, (if negb (feq af f0) then (r1, g1, b1) else (0%Z, 0%Z, 0%Z)) = (r0, g0, b0) /\
      ((r0 = r1 \/ r0 = 0%Z /\ b2r af = 0) /\ (g0 = g1 \/ g0 = 0%Z /\ b2r af = 0) /\ (b0 = b1 \/ b0 = 0%Z /\ b2r af = 0))) as (r0 & g0 & b0 & E0 & B1 & B2 & B3).
    { pose proof (compl_range sf Hsf) as Haf. fold af in Haf. destruct Haf as (Faf & _). destruct f0_val as (Vz & Fz).
      rewrite feq_spec, Vz by auto. destruct (Req_bool_spec (b2r af) 0) as [Q|Q]; cbn [negb]; eexists _, _, _; (split; [reflexivity|]); auto 10. }
    rewrite E0 in E. clear E0.
    destruct (feq sf f0) eqn:Esf; cbn [negb andb] in E.
    + (* nothing as pigment *)
      destruct f0_val as (Vz & Fz). rewrite feq_spec, Vz in Esf by (auto; apply Hsf).
      destruct (Req_bool_spec (b2r sf) 0) as [Q|Q]; [|discriminate Esf].
      pose proof (compl_close sf w _ FC Rw ltac:(lra)) as (Faf & Haf). fold af in Haf. destruct FC as (_ & FC). rewrite Q in FC.
      apply Rabs_le_inv in FC. apply Rabs_le_inv in Haf.
      assert (r0 = r1) as -> by (destruct B1 as [|(_ & B1)]; [auto|lra]). assert (g0 = g1) as -> by (destruct B2 as [|(_ & B2)]; [auto|lra]). assert (b0 = b1) as -> by (destruct B3 as [|(_ & B3)]; [auto|lra]).
      cbn [obind] in E. injection E as <-. cbn [pr pg pb pa near] in *. onez. rewrite !u16_small in * by lia.
      assert (forall c1 S', (0 <= c1 <= u)%Z -> 0 <= S' <= 1 -> Rabs (IZR c1 - (w * (IZR u * S') + (1 - w) * IZR c1)) <= 9 / 10000 * IZR u + 5 / 4) as K.
      { intros c1 S' Hc1 RS. assert (0 <= IZR c1 <= IZR u) by (split; apply IZR_le; lia). assert (IZR u <= 32768) by (apply IZR_le; lia).
        assert (0 <= IZR u * S' <= IZR u * 1) by (split; [apply Rmult_le_pos; lra|apply Rmult_le_compat_l; lra]).
        replace (IZR c1 - (w * (IZR u * S') + (1 - w) * IZR c1)) with (w * (IZR c1 - IZR u * S')) by ring.
        rewrite Rabs_mult, (Rabs_pos_eq w) by lra. assert (Rabs (IZR c1 - IZR u * S') <= 32768) by (apply Rabs_le; lra).
        assert (w * Rabs (IZR c1 - IZR u * S') <= 2 / 1000000 * 32768) by (apply Rmult_le_compat; try lra; apply Rabs_pos). lra. }
      repeat split; apply K; auto.
    + assert (forall s c0 c1, iv 0 s 1 -> (0 <= c1 <= u)%Z -> (c0 = c1 \/ c0 = 0%Z /\ b2r af = 0) -> (0 <= c0 <= u)%Z) as CB by (intros; lia).
      assert (forall s S' c0 c1, iv 0 s 1 -> ap s S' (9 / 10000) -> 0 <= S' <= 1 -> (0 <= c1 <= u)%Z -> (c0 = c1 \/ c0 = 0%Z /\ b2r af = 0) ->
        exists v, f_to_u32 (fadd (fmul af (f_of_Z c0)) (fmul (fmul sf s) (f_of_Z u))) = Ok v /\ (0 <= v <= u)%Z /\
          Rabs (IZR v - ((1 - w) * IZR c1 + w * (IZR u * S'))) <= 9 / 10000 * IZR u + 5 / 4) as K.
      { intros s S' c0 c1 Hs' Ks RS Hc1 Hc0. destruct (erase_range sf s c0 u Hsf Hs' ltac:(lia) ltac:(lia)) as (v & Ev & Rv). fold af in Ev. exists v. split; [exact Ev|]. split; [exact Rv|].
        apply (erase_close sf s S' w c1 c0 u v FC Rw Ks RS Hc1 ltac:(onez; lia) Hc0 Ev Rv). }
      destruct (K x X r0 r1 Hx Kx RX X1 B1) as (vr & Er & Rr & Dr). destruct (K y Y g0 g1 Hy Ky RY X2 B2) as (vg & Eg & Rg & Dg). destruct (K z Zz b0 b1 Hz Kz RZ X3 B3) as (vb & Ebl & Rb & Db).
      rewrite Er in E. cbn [obind] in E. rewrite Eg in E. cbn [obind] in E. rewrite Ebl in E. cbn [obind] in E. injection E as <-. cbn [pr pg pb pa near] in *.
      onez. rewrite !u16_small in * by lia. repeat split; rewrite Rplus_comm; auto.
  - cbn [lifted ordinary_ok] in Hl. destruct Hl as ((Cr & Cg & Cb) & Ho). unfold frac in *. rewrite fullE in *.
    destruct (opa_a_exact m (Z.max o 150) Hm Ho) as (Ea & Ba). cbn [too_faint] in NF. rewrite fullE in NF.
    unfold blend_lock_alpha_paint in E. cbv zeta in E. replace (pa p <=? 0)%Z with false in E by lia.
    unfold ideal. cbn [lifted exact pa pr pg pb composite as_pigment brush_share] in *. rewrite fullE in *. rewrite Ea in E. set (t := (m * Z.max o 150 / ONE)%Z) in *. rewrite opa_b_exact in E by auto.
    rewrite (u32_small (t * pa p)) in E by (onez; nia).
    assert (1 <= t * pa p / ONE + (ONE - t) * pa p / ONE <= pa p)%Z as D1.
    { onez. destruct (div_bounds (t * pa p)) as (Q1 & Q2); [nia|]. destruct (div_bounds ((32768 - t) * pa p)) as (Q3 & Q4); [nia|].
      split; [|nia]. assert (t = 0 \/ t = 32768 \/ 2 <= pa p)%Z as [-> | [-> | ]] by lia.
      - change (0 * pa p / 32768)%Z with 0%Z. rewrite Z.sub_0_r, Z.mul_comm, Z.div_mul by lia. lia.
      - rewrite Z.mul_comm, Z.div_mul by lia. change ((32768 - 32768) * pa p / 32768)%Z with 0%Z. lia.
      - nia. }
    assert (0 <= t * pa p / ONE)%Z as T0 by (apply Z.div_pos; onez; nia). assert (0 <= (ONE - t) * pa p / ONE)%Z as T1 by (apply Z.div_pos; onez; nia).
    destruct (mix_near c p (t * pa p / ONE) (ONE - t) ONE) as (x & y & z & X & Y & Zz & Em & Hx & Hy & Hz & Eb & Kx & Ky & Kz & RX & RY & RZ); try (onez; lia).
    rewrite Em in E. rewrite ratio_one, Rmult_1_r in Eb. unfold brush_tint. cbn [paint_of]. cbv zeta. rewrite Eb. onez.
    destruct (paint_store x (pa p)) as [r'| |] eqn:Er; try discriminate E. destruct (paint_store y (pa p)) as [g'| |] eqn:Eg; try discriminate E. destruct (paint_store z (pa p)) as [b'| |] eqn:Eb'; try discriminate E.
    cbn [obind] in E. injection E as <-. cbn [pr pg pb pa near] in *.
    pose proof (store_close x X (pa p) r' Hx Kx ltac:(lia) Er) as S1. pose proof (store_close y Y (pa p) g' Hy Ky ltac:(lia) Eg) as S2. pose proof (store_close z Zz (pa p) b' Hz Kz ltac:(lia) Eb') as S3.
    replace (1 - 1) with 0 by ring. rewrite !Rmult_1_l, !Rmult_0_l, !Rplus_0_r. repeat split; lra.
Qed.


(** ** Three consequences *)
Definition in_unit (c : tint) : Prop := let '(r, g, b) := c in 0 <= r <= 1 /\ 0 <= g <= 1 /\ 0 <= b <= 1.
Definition times (k : R) (c : tint) : tint := let '(r, g, b) := c in (k * r, k * g, k * b).
Lemma mean_same : forall x s, 0 < x -> Rpower x s * Rpower x (1 - s) = x.
Proof. intros x s H. rewrite <- Rpower_plus. replace (s + (1 - s)) with 1 by ring. apply Rpower_1. exact H. Qed.
Lemma round_trip : forall c, in_unit c -> let '(r, g, b) := c in let '(x, y, z) := colour_of (bands c) in
  Rabs (x - r) <= 1 / 5000 /\ Rabs (y - g) <= 1 / 5000 /\ Rabs (z - b) <= 1 / 5000.
Proof.
  intros [[r g] b] H. pose proof (P_Spectral.C46_round_trip (r, g, b) H) as K. unfold P_Spectral.close in K.
  rewrite bands_is, colour_is in K by reflexivity. destruct (colour_of _) as [[x y] z]. exact K.
Qed.
Lemma blended_same : forall s c, in_unit c -> blended s c c = colour_of (bands c).
Proof.
  intros s c H. unfold blended. f_equal. rewrite <- bands_is.
  assert (Forall (fun x => 0 < x) (P_Spectral.reflectances c)) as F.
  { destruct (P_Spectral.reflectance_range c) as (_ & K); [destruct c as [[? ?] ?]; exact H|]. eapply Forall_impl; [|exact K]. cbn. intros. lra. }
  induction F as [|x l Hx _ IH]; [reflexivity|]. cbn [combine map fst snd]. rewrite mean_same by exact Hx. f_equal. exact IH.
Qed.
Lemma blended_ends : forall a b, in_unit a -> in_unit b -> blended 1 a b = colour_of (bands a) /\ blended 0 a b = colour_of (bands b).
Proof.
  intros a b Ha Hb. unfold blended.
  assert (forall c, in_unit c -> Forall (fun x => 0 < x) (P_Spectral.reflectances c) /\ length (P_Spectral.reflectances c) = 10%nat) as F.
  { intros c H. destruct (P_Spectral.reflectance_range c) as (L & K); [destruct c as [[? ?] ?]; exact H|]. split; [|exact L]. eapply Forall_impl; [|exact K]. cbn. intros. lra. }
  destruct (F a Ha) as (Fa & La). destruct (F b Hb) as (Fb & Lb). rewrite <- !bands_is.
  split; f_equal; [exact (proj1 (P_Spectral.pow_1 Rpower _ ltac:(intros ? ? _; reflexivity) Fa (P_Spectral.reflectances b) ltac:(congruence) Fb))|].
  exact (proj2 (P_Spectral.pow_1 Rpower _ ltac:(intros ? ? _; reflexivity) Fb (P_Spectral.reflectances a) ltac:(congruence) Fa)).
Qed.
Lemma ratio_range : forall a b, (0 <= a <= b)%Z -> (1 <= b)%Z -> 0 <= ratio a b <= 1.
Proof. exact part_range. Qed.
Lemma brush_unit : forall d, ordinary_ok d -> in_unit (brush_tint d).
Proof.
  intros d H. assert (colour_ok (paint_of d)) as (Cr & Cg & Cb) by (destruct d; cbn [ordinary_ok paint_of] in *; tauto).
  unfold brush_tint, in_unit. cbv zeta. unfold frac in *. change full with 32768%Z in *. repeat split; apply ratio_range; lia.
Qed.
Lemma canvas_unit : forall p, valid p -> (0 < pa p)%Z -> in_unit (canvas_tint p).
Proof. intros p (Hr & Hg & Hb & Ha) P. unfold canvas_tint, in_unit. repeat split; apply ratio_range; lia. Qed.
Lemma lifted_brush : forall d, brush_tint (lifted d) = brush_tint d. Proof. intros []; reflexivity. Qed.

(** the averaged part is close to the colour [c] *)
Definition averaged_near (d : ordinary) (m : Z) (p : pixel) (c : tint) : Prop :=
  match d with Eraser _ _ _ => near 1 (exact d m p) (times (IZR (pa (exact d m p))) c) | _ => True end.
Lemma pure_near : forall d m p c, ordinary_ok d -> frac m -> valid p -> (0 < pa p)%Z -> ~ too_faint d m p -> in_unit c ->
  blended (brush_share (lifted d) m p) (brush_tint d) (canvas_tint p) = colour_of (bands c) -> averaged_near (lifted d) m p c ->
  exists p', run_pigment d m p = Ok p' /\ near (11 / 10000 * IZR (pa p') + 9 / 4) p' (times (IZR (pa p')) c).
Proof.
  intros d m p c Hd Hm Vp P0 NF Hc B Av.
  destruct (C51_pigment_accurate d m p Hd Hm Vp P0 NF) as (p' & E & A & N). exists p'. split; [exact E|].
  unfold ideal in N. rewrite lifted_brush, B in N. pose proof (round_trip c Hc) as RT. destruct c as [[r g] b]. destruct (colour_of _) as [[x y] z].
  rewrite <- A in N. cbn [near times] in *.
  assert (0 <= as_pigment (lifted d) p <= 1) as W.
  { destruct d; cbn [lifted as_pigment]; try lra. apply sigmoid_range. }
  assert (0 <= IZR (pa p')) as A0.
  { destruct (C48_pigment_valid_partial d m p Hd Hm Vp NF) as (q & E' & (V1 & _ & _ & V4) & _). rewrite E in E'. injection E' as <-. apply IZR_le. lia. }
  assert (forall v i j k, Rabs (v - (as_pigment (lifted d) p * (IZR (pa p') * j) + (1 - as_pigment (lifted d) p) * IZR k)) <= 9 / 10000 * IZR (pa p') + 5 / 4 ->
    Rabs (j - i) <= 1 / 5000 -> (as_pigment (lifted d) p = 1 \/ Rabs (IZR k - IZR (pa p') * i) <= 1) -> Rabs (v - IZR (pa p') * i) <= 11 / 10000 * IZR (pa p') + 9 / 4) as K.
  { set (w := as_pigment (lifted d) p) in *. clearbody w. set (a := IZR (pa p')) in *. clearbody a. intros v i j k H1 H2 H3.
    replace (v - a * i) with ((v - (w * (a * j) + (1 - w) * IZR k)) + (w * (a * (j - i)) + (1 - w) * (IZR k - a * i))) by ring.
    eapply Rle_trans; [apply Rabs_triang|]. assert (Rabs (w * (a * (j - i)) + (1 - w) * (IZR k - a * i)) <= 2 / 10000 * a + 1); [|lra].
    eapply Rle_trans; [apply Rabs_triang|]. rewrite !Rabs_mult, (Rabs_pos_eq w), (Rabs_pos_eq a), (Rabs_pos_eq (1 - w)) by lra.
    assert (0 <= a * Rabs (j - i) <= a * (1 / 5000)) by (split; [apply Rmult_le_pos; [lra|apply Rabs_pos]|apply Rmult_le_compat_l; lra]).
    assert (w * (a * Rabs (j - i)) <= 1 * (a * (1 / 5000))) by (apply Rmult_le_compat; lra).
    assert ((1 - w) * Rabs (IZR k - a * i) <= 1); [|lra].
    destruct H3 as [->|H3]; [rewrite Rminus_diag_eq by reflexivity; lra|].
    apply Rle_trans with (1 * 1); [apply Rmult_le_compat; try lra; apply Rabs_pos|lra]. }
  assert (as_pigment (lifted d) p = 1 \/ near 1 (exact (lifted d) m p) (times (IZR (pa p')) (r, g, b))) as D.
  { rewrite A. destruct d; cbn [lifted as_pigment averaged_near] in *; auto. }
  destruct N as (N1 & N2 & N3). destruct RT as (T1 & T2 & T3). cbn [near times] in D.
  split; [|split]; eapply K; eauto; destruct D as [D|(D1 & D2 & D3)]; auto.
Qed.

(** Painting a colour over itself leaves it: up to 11/10000 of the alpha and two
    units, whatever the mode and the opacity. *)
Lemma div_real : forall n, (0 <= n)%Z -> IZR n / 32768 - 1 <= IZR (n / 32768) <= IZR n / 32768.
Proof.
  intros n H. pose proof (Z.mul_div_le n 32768 ltac:(lia)) as L. pose proof (Z.mul_succ_div_gt n 32768 ltac:(lia)) as G.
  apply IZR_le in L. apply IZR_lt in G. rewrite mult_IZR in L, G. rewrite succ_IZR in G. lra.
Qed.
Theorem C51_same_colour : forall d m p, ordinary_ok d -> frac m -> valid p -> (0 < pa p)%Z -> ~ too_faint d m p ->
  canvas_tint p = brush_tint d ->
  exists p', run_pigment d m p = Ok p' /\ near (11 / 10000 * IZR (pa p') + 9 / 4) p' (times (IZR (pa p')) (brush_tint d)).
Proof.
  intros d m p Hd Hm Vp P0 NF S. pose proof (brush_unit d Hd) as Bu. apply pure_near; auto; [rewrite S; apply blended_same; exact Bu|].
  destruct d as [c o|c ca o|c o]; cbn [lifted averaged_near]; auto.
  cbn [ordinary_ok] in Hd. destruct Hd as ((Cr & Cg & Cb) & Hca & Ho). unfold frac in *. destruct Vp as (Hr & Hg & Hb & Ha).
  cbn [exact composite pa near times brush_tint paint_of pr pg pb] in *. change full with 32768%Z in *.
  assert (0 <= m * o / 32768 <= 32768)%Z as T by (split; [apply Z.div_pos; nia|apply Z.div_le_upper_bound; nia]). set (t := (m * o / 32768)%Z) in *.
  assert (0 <= t * ca / 32768)%Z as T2 by (apply Z.div_pos; nia). set (t2 := (t * ca / 32768)%Z) in *. clearbody t t2.
  assert (0 < IZR (pa p)) as P1 by (apply IZR_lt; lia).
  assert (forall q cc, (0 <= q <= pa p)%Z -> (0 <= cc <= 32768)%Z -> ratio q (pa p) = ratio cc 32768 ->
    Rabs (IZR ((t2 * cc + (32768 - t) * q) / 32768) - IZR (t2 + (32768 - t) * pa p / 32768) * ratio cc 32768) <= 1) as K.
  { intros q cc Hq Hcc R. pose proof (ratio_range cc 32768 Hcc ltac:(lia)) as RR.
    assert (IZR q = ratio cc 32768 * IZR (pa p)) as Eq by (rewrite <- R; unfold ratio; field; lra).
    assert (IZR cc = ratio cc 32768 * 32768) as Ec by (unfold ratio; field).
    pose proof (div_real (t2 * cc + (32768 - t) * q) ltac:(nia)) as D1. pose proof (div_real ((32768 - t) * pa p) ltac:(nia)) as D2.
    rewrite plus_IZR, !mult_IZR, minus_IZR, Eq in D1. rewrite Ec in D1. rewrite mult_IZR, minus_IZR in D2. rewrite plus_IZR.
    set (k := ratio cc 32768) in *. set (X := IZR ((32768 - t) * pa p / 32768)) in *. clearbody k X.
    set (Y := IZR ((t2 * cc + (32768 - t) * q) / 32768)) in *. clearbody Y.
    set (B := (32768 - IZR t) * IZR (pa p)) in *.
    replace (IZR t2 * (k * 32768) + (32768 - IZR t) * (k * IZR (pa p))) with (k * (IZR t2 * 32768 + B)) in D1 by (unfold B; ring). clearbody B.
    assert (k * (B / 32768 - 1) <= k * X <= k * (B / 32768)) as KX by (split; apply Rmult_le_compat_l; lra).
    apply Rabs_le. lra. }
  injection S as S1 S2 S3. split; [|split]; apply K; auto.
Qed.

(** A dab of full weight replaces the colour, one of no weight leaves it. *)
Definition weight (d : ordinary) (m : Z) : Z := match d with Normal _ o | LockAlpha _ o | Eraser _ _ o => (m * o / full)%Z end.
Definition opaque_paint (d : ordinary) : Prop := match d with Eraser _ ca _ => ca = full | _ => True end.
Theorem C51_full_weight : forall d m p, ordinary_ok d -> frac m -> valid p -> (0 < pa p)%Z -> ~ too_faint d m p ->
  weight (lifted d) m = full -> opaque_paint d ->
  exists p', run_pigment d m p = Ok p' /\ near (11 / 10000 * IZR (pa p') + 9 / 4) p' (times (IZR (pa p')) (brush_tint d)).
Proof.
  intros d m p Hd Hm Vp P0 NF Wt Op. pose proof (brush_unit d Hd) as Bu. pose proof (canvas_unit p Vp P0) as Cu. destruct Vp as (Hr & Hg & Hb & Ha).
  assert (forall x, ((full - full) * x / full = 0)%Z) as Z0 by (intros x; rewrite Z.sub_diag; reflexivity).
  apply pure_near; auto; [repeat split; auto; lia| |].
  - replace (brush_share (lifted d) m p) with 1; [apply blended_ends; auto|]. symmetry.
    destruct d as [c o|c ca o|c o]; cbn [lifted weight brush_share opaque_paint] in *; cbv zeta; rewrite Wt.
    + rewrite Z0, Z.add_0_r. unfold ratio. change full with 32768%Z. lra.
    + rewrite Op, Z0, Z.add_0_r. unfold ratio. change full with 32768%Z. lra.
    + rewrite Z0, Z.add_0_r. change full with 32768%Z. replace (32768 * pa p / 32768)%Z with (pa p) by (rewrite Z.mul_comm, Z.div_mul; lia).
      unfold ratio. field. assert (0 < IZR (pa p)) by (apply IZR_lt; lia). lra.
  - destruct d as [c o|c ca o|c o]; cbn [lifted averaged_near weight opaque_paint] in *; auto.
    cbn [exact composite pa near times brush_tint paint_of pr pg pb]. cbv zeta. rewrite Wt, Op, Z0. change full with 32768%Z in *.
    replace (32768 * 32768 / 32768)%Z with 32768%Z by reflexivity. 
    assert (forall cc q, IZR ((32768 * cc + (32768 - 32768) * q) / 32768) = IZR (32768 + 0) * ratio cc 32768) as K.
    { intros cc q. replace (32768 * cc + (32768 - 32768) * q)%Z with (cc * 32768)%Z by ring. rewrite Z.div_mul by lia. unfold ratio. rewrite Z.add_0_r. field. }
    rewrite !K. rewrite !Rminus_diag_eq, Rabs_R0 by reflexivity. lra.
Qed.
Theorem C51_no_weight : forall d m p, ordinary_ok d -> frac m -> valid p -> (0 < pa p)%Z -> weight (lifted d) m = 0%Z ->
  exists p', run_pigment d m p = Ok p' /\ pa p' = pa p /\ near (11 / 10000 * IZR (pa p') + 9 / 4) p' (IZR (pr p), IZR (pg p), IZR (pb p)).
Proof.
  intros d m p Hd Hm Vp P0 Wt. pose proof (brush_unit d Hd) as Bu. pose proof (canvas_unit p Vp P0) as Cu. pose proof Vp as (Hr & Hg & Hb & Ha).
  assert (0 < IZR (pa p)) as P1 by (apply IZR_lt; lia).
  assert (forall x, ((full - 0) * x / full = x)%Z) as Z0 by (intros x; rewrite Z.sub_0_r, Z.mul_comm, Z.div_mul; [auto|discriminate]).
  assert (~ too_faint d m p) as NF by (destruct d; cbn [too_faint lifted weight] in *; lia).
  assert (pa (exact (lifted d) m p) = pa p) as Al.
  { destruct d as [c o|c ca o|c o]; cbn [lifted weight exact composite pa] in *; cbv zeta; rewrite ?Wt, ?Z0; reflexivity. }
  assert (times (IZR (pa p)) (canvas_tint p) = (IZR (pr p), IZR (pg p), IZR (pb p))) as Tm.
  { unfold canvas_tint, times, ratio. repeat apply f_equal2; field; lra. }
  destruct (pure_near d m p (canvas_tint p)) as (p' & E & N); auto.
  - replace (brush_share (lifted d) m p) with 0; [apply blended_ends; auto|]. symmetry.
    destruct d as [c o|c ca o|c o]; cbn [lifted weight brush_share] in *; cbv zeta; rewrite Wt; unfold ratio; change (0 * pa p / full)%Z with 0%Z; unfold Rdiv; ring.
  - destruct d as [c o|c ca o|c o]; cbn [lifted averaged_near weight] in *; auto. rewrite Al, Tm.
    cbn [exact composite near pr pg pb]. cbv zeta. rewrite Wt. change (0 * ca / full)%Z with 0%Z. rewrite !Z.mul_0_l, !Z.add_0_l, !Z0.
    rewrite !Rminus_diag_eq, Rabs_R0 by reflexivity. lra.
  - exists p'. split; [exact E|].
    destruct (C48_pigment_valid_partial d m p Hd Hm Vp NF) as (q & E' & _ & A). rewrite E in E'. injection E' as <-. rewrite Al in A. split; [exact A|].
    rewrite A in *. rewrite Tm in N. exact N.
Qed.

(** It is not left exactly: the colours go through the spectrum and back even
    where the dab has no weight, and dab after dab they drift away. *)
Fixpoint dabs (n : nat) (d : ordinary) (m : Z) (p : pixel) : outcome pixel :=
  match n with O => Ok p | S n => let* q := run_pigment d m p in dabs n d m q end.
Theorem C51_untouched_refuted : exists d m p p', ordinary_ok d /\ frac m /\ (0 < m)%Z /\ valid p /\ weight (lifted d) m = 0%Z /\
  run (lifted d) m p = Ok p /\ dabs 10 d m p = Ok p' /\ (20 <= pb p - pb p')%Z.
Proof.
  exists (Normal (mkRgb 32768 0 16384) 100), 100%Z, (mkPx 100 20000 15000 30000), (mkPx 110 20000 14977 30000).
  unfold ordinary_ok, colour_ok, frac, valid, full. cbn [cr cg cb pr pg pb pa]. change (2 ^ 15)%Z with 32768%Z.
  repeat (split; [lia|]). split; [reflexivity|]. split; [reflexivity|]. split; [vm_compute; reflexivity|lia].
Qed.

(** ** Cases *)
Example C51_case : let d := Normal (mkRgb 32768 0 16384) 16384 in let p := mkPx 1000 20000 3000 30000 in
  ordinary_ok d /\ frac 32768 /\ valid p /\ (0 < pa p)%Z /\ ~ too_faint d 32768 p /\
  run_pigment d 32768 p = Ok (mkPx 8140 5956 7754 31384) /\ brush_share (lifted d) 32768 p = 16384 / 31384 /\ as_pigment d p = 1.
Proof.
  cbv zeta. unfold ordinary_ok, colour_ok, frac, valid, full, too_faint. cbn [cr cg cb pr pg pb pa]. change (2 ^ 15)%Z with 32768%Z.
  repeat (split; [lia|]). split; [auto|]. split; [vm_compute; reflexivity|]. split; reflexivity.
Qed.
Example C51_consequences_case : let red := mkRgb 32768 0 16384 in
  canvas_tint (mkPx 30000 0 15000 30000) = brush_tint (LockAlpha red 16384) /\ valid (mkPx 30000 0 15000 30000) /\
  run_pigment (LockAlpha red 16384) 32768 (mkPx 30000 0 15000 30000) = Ok (mkPx 30000 0 14996 30000) /\
  weight (Normal red 32768) 32768 = full /\
  run_pigment (Normal red 32768) 32768 (mkPx 100 20000 15000 30000) = Ok (mkPx 32768 0 16380 32768) /\
  weight (lifted (Normal red 100)) 100 = 0%Z /\ run_pigment (Normal red 100) 100 (mkPx 100 20000 15000 30000) = Ok (mkPx 101 20000 14997 30000).
Proof.
  cbv zeta. split; [unfold canvas_tint, brush_tint, ratio; cbn [paint_of cr cg cb pr pg pb pa]; change full with 32768%Z; apply f_equal2; [apply f_equal2|]; lra|].
  split; [unfold valid, full; cbn [pr pg pb pa]; change (2 ^ 15)%Z with 32768%Z; lia|]. split; [vm_compute; reflexivity|]. split; [reflexivity|].
  split; [vm_compute; reflexivity|]. split; [reflexivity|]. vm_compute; reflexivity.
Qed.

(** the four theorems of this file about the code's accuracy, in one go *)
Definition C51_all := (C51_pigment_accurate, C51_same_colour, C51_full_weight, C51_no_weight).
Print Assumptions C51_all.
Print Assumptions C51_untouched_refuted.
