(** Lemmas about the float operations of F32.v, as facts about reals. *)
From Verif Require Import Base F32.
From Coq Require Import Reals Lra.
From Flocq Require Import Core.Core IEEE754.BinarySingleNaN Relative.

Notation b2r := B2R.

Section Gen.
  Variables prec emax : Z.
  Context (Hp : FLX.Prec_gt_0 prec) (He : Prec_lt_emax prec emax).
  Notation fl := (binary_float prec emax).
  Notation fexp := (SpecFloat.fexp prec emax).
  Notation emin := (SpecFloat.emin prec emax).

  Definition rndg (x : R) : R := round radix2 fexp ZnearestE x.

  Instance fexp_valid : Valid_exp fexp.
  Proof. exact (fexp_correct prec emax Hp). Qed.
  Instance fexp_mono : Monotone_exp fexp.
  Proof. unfold SpecFloat.fexp, SpecFloat.emin. intros a b. lia. Qed.

  Lemma emin_small : emin < emax - 1.
  Proof. unfold SpecFloat.emin, FLX.Prec_gt_0, Prec_lt_emax in *. lia. Qed.

  (** integers times powers of two that fit are representable *)
  Lemma rep_F2R : forall m e, Z.abs m <= 2 ^ prec -> emin <= e ->
    generic_format radix2 fexp (F2R (Float radix2 m e)).
  Proof.
    intros m e Hm He1. destruct (Z.eq_dec (Z.abs m) (2 ^ prec)) as [E|N].
    - assert (generic_format radix2 fexp (bpow radix2 (prec + e))) as G.
      { apply generic_format_bpow. unfold SpecFloat.fexp, FLX.Prec_gt_0 in *. lia. }
      assert (0 <= prec) by (unfold FLX.Prec_gt_0 in *; lia).
      assert (F2R (Float radix2 m e) = bpow radix2 (prec + e) \/
              F2R (Float radix2 m e) = (- bpow radix2 (prec + e))%R) as [-> | ->].
      { unfold F2R. cbn [Fnum Fexp]. rewrite bpow_plus.
        assert (bpow radix2 prec = IZR (2 ^ prec)) as -> by (symmetry; apply (IZR_Zpower radix2); lia).
        destruct (Z.abs_spec m) as [[_ X]|[_ X]].
        - left. replace m with (2 ^ prec) by lia. reflexivity.
        - right. replace m with (- 2 ^ prec) by lia. rewrite opp_IZR. ring. }
      + auto.
      + apply generic_format_opp; auto.
    - apply generic_format_F2R. intros Z0.
      unfold cexp. unfold SpecFloat.fexp.
      apply Z.max_lub; [|auto].
      rewrite mag_F2R by auto.
      assert (mag radix2 (IZR m) <= prec)%Z; [|lia].
      apply mag_le_bpow; [apply IZR_neq; auto|].
      rewrite <- abs_IZR. assert (0 <= prec) by (unfold FLX.Prec_gt_0 in *; lia).
      rewrite <- (IZR_Zpower radix2) by lia. apply IZR_lt. change (Z.abs m < 2 ^ prec). lia.
  Qed.

  Lemma rep_IZR : forall m, Z.abs m <= 2 ^ prec -> emin <= 0 ->
    generic_format radix2 fexp (IZR m).
  Proof. intros. replace (IZR m) with (F2R (Float radix2 m 0)) by (unfold F2R; simpl; ring).
    apply rep_F2R; auto. Qed.

  Lemma rep_bpow : forall e, emin + prec <= e + 1 -> generic_format radix2 fexp (bpow radix2 e).
  Proof. intros. apply generic_format_bpow. unfold SpecFloat.fexp, FLX.Prec_gt_0 in *. lia. Qed.

  Lemma rndg_id : forall x, generic_format radix2 fexp x -> rndg x = x.
  Proof. intros. apply round_generic; auto. apply valid_rnd_N. Qed.

  Lemma rndg_le : forall x y, (x <= y)%R -> (rndg x <= rndg y)%R.
  Proof. intros. apply round_le; auto. apply fexp_valid. apply valid_rnd_N. Qed.

  Lemma rndg_le_g : forall x y, generic_format radix2 fexp y -> (x <= y)%R -> (rndg x <= y)%R.
  Proof. intros. rewrite <- (rndg_id y) by auto. apply rndg_le; auto. Qed.
  Lemma rndg_ge_g : forall x y, generic_format radix2 fexp y -> (y <= x)%R -> (y <= rndg x)%R.
  Proof. intros. rewrite <- (rndg_id y) by auto. apply rndg_le; auto. Qed.

  Lemma rndg_opp : forall x, rndg (- x) = (- rndg x)%R.
  Proof. intros. apply round_NE_opp. Qed.

  Lemma rndg_abs_le : forall x y, generic_format radix2 fexp y -> (Rabs x <= y)%R -> (Rabs (rndg x) <= y)%R.
  Proof. intros. apply abs_round_le_generic; auto. apply fexp_valid. apply valid_rnd_N. Qed.

  (** absolute rounding error below a power of two *)
  Lemma rndg_err : forall x e, (Rabs x <= bpow radix2 e)%R -> emin + prec <= e ->
    (Rabs (rndg x - x) <= bpow radix2 (e - prec - 1))%R.
  Proof.
    intros x e Hx Hem. destruct (Req_dec (Rabs x) (bpow radix2 e)) as [E|N].
    - assert (generic_format radix2 fexp x) as G.
      { assert (generic_format radix2 fexp (bpow radix2 e)) by (apply rep_bpow; lia).
        apply generic_format_abs_inv. rewrite E; auto. }
      rewrite rndg_id by auto. rewrite Rminus_eq_0, Rabs_R0. apply bpow_ge_0.
    - eapply Rle_trans; [apply error_le_half_ulp; apply fexp_valid|].
      assert (ulp radix2 fexp x <= bpow radix2 (e - prec))%R as U.
      { destruct (Req_dec x 0) as [-> | Nx].
        - assert (ulp radix2 fexp 0 = bpow radix2 emin) as ->.
          { unfold ulp. rewrite Req_bool_true by auto.
            destruct (negligible_exp_spec' fexp) as [[-> H2]|(n & -> & H2)].
            - exfalso. specialize (H2 emin). unfold SpecFloat.fexp in H2. lia.
            - f_equal. unfold SpecFloat.fexp in *. unfold FLX.Prec_gt_0 in *. lia. }
          apply bpow_le. lia.
        - rewrite ulp_neq_0 by auto. apply bpow_le. unfold cexp, SpecFloat.fexp.
          assert (mag radix2 x <= e)%Z.
          { apply mag_le_bpow; auto. destruct (Rle_lt_or_eq_dec _ _ Hx); auto; congruence. }
          lia. }
      replace (e - prec - 1) with (-1 + (e - prec)) by lia. rewrite bpow_plus.
      change (bpow radix2 (-1)) with (/ 2)%R. pose proof (bpow_ge_0 radix2 (e - prec)). lra.
  Qed.

  Lemma big_ok : forall x, (Rabs x <= bpow radix2 (emax - 1))%R ->
    Rlt_bool (Rabs (rndg x)) (bpow radix2 emax) = true.
  Proof.
    intros. apply Rlt_bool_true. apply Rle_lt_trans with (bpow radix2 (emax - 1)).
    - apply rndg_abs_le; auto. apply rep_bpow. unfold SpecFloat.emin, FLX.Prec_gt_0, Prec_lt_emax in *. lia.
    - apply bpow_lt. lia.
  Qed.

  Lemma mul_spec : forall x y : fl, is_finite x = true -> is_finite y = true ->
    (Rabs (b2r x * b2r y) <= bpow radix2 (emax - 1))%R ->
    b2r (Bmult mode_NE x y) = rndg (b2r x * b2r y) /\ is_finite (Bmult mode_NE x y) = true.
  Proof.
    intros. pose proof (Bmult_correct prec emax Hp He mode_NE x y) as C.
    change (round radix2 fexp (round_mode mode_NE) (b2r x * b2r y)) with (rndg (b2r x * b2r y)) in C.
    rewrite big_ok in C by auto. destruct C as (-> & -> & _). rewrite H, H0. auto.
  Qed.

  Lemma add_spec : forall x y : fl, is_finite x = true -> is_finite y = true ->
    (Rabs (b2r x + b2r y) <= bpow radix2 (emax - 1))%R ->
    b2r (Bplus mode_NE x y) = rndg (b2r x + b2r y) /\ is_finite (Bplus mode_NE x y) = true.
  Proof.
    intros. pose proof (Bplus_correct prec emax Hp He mode_NE x y H H0) as C.
    change (round radix2 fexp (round_mode mode_NE) (b2r x + b2r y)) with (rndg (b2r x + b2r y)) in C.
    rewrite big_ok in C by auto. destruct C as (-> & -> & _). auto.
  Qed.

  Lemma sub_spec : forall x y : fl, is_finite x = true -> is_finite y = true ->
    (Rabs (b2r x - b2r y) <= bpow radix2 (emax - 1))%R ->
    b2r (Bminus mode_NE x y) = rndg (b2r x - b2r y) /\ is_finite (Bminus mode_NE x y) = true.
  Proof.
    intros. pose proof (Bminus_correct prec emax Hp He mode_NE x y H H0) as C.
    change (round radix2 fexp (round_mode mode_NE) (b2r x - b2r y)) with (rndg (b2r x - b2r y)) in C.
    rewrite big_ok in C by auto. destruct C as (-> & -> & _). auto.
  Qed.

  Lemma div_spec : forall x y : fl, is_finite x = true -> b2r y <> 0%R ->
    (Rabs (b2r x / b2r y) <= bpow radix2 (emax - 1))%R ->
    b2r (Bdiv mode_NE x y) = rndg (b2r x / b2r y) /\ is_finite (Bdiv mode_NE x y) = true.
  Proof.
    intros. pose proof (Bdiv_correct prec emax Hp He mode_NE x y H0) as C.
    change (round radix2 fexp (round_mode mode_NE) (b2r x / b2r y)) with (rndg (b2r x / b2r y)) in C.
    rewrite big_ok in C by auto. destruct C as (-> & -> & _). auto.
  Qed.

  Lemma norm_spec : forall m e s, (Rabs (F2R (Float radix2 m e)) <= bpow radix2 (emax - 1))%R ->
    b2r (binary_normalize prec emax Hp He mode_NE m e s) = rndg (F2R (Float radix2 m e)) /\
    is_finite (binary_normalize prec emax Hp He mode_NE m e s) = true.
  Proof.
    intros. pose proof (binary_normalize_correct prec emax Hp He mode_NE m e s) as C.
    cbv zeta in C.
    change (round radix2 fexp (round_mode mode_NE) (F2R (Float radix2 m e)))
      with (rndg (F2R (Float radix2 m e))) in C.
    rewrite big_ok in C by auto. destruct C as (-> & -> & _). auto.
  Qed.

  Lemma b2r_format : forall x : fl, generic_format radix2 fexp (b2r x).
  Proof. intros. apply generic_format_B2R. Qed.

  Lemma trunc_spec : forall x : fl, Btrunc x = Ztrunc (b2r x).
  Proof.
    intros. apply eq_IZR. rewrite Btrunc_correct. unfold round, F2R, scaled_mantissa, cexp, FIX_exp.
    cbn [Fnum Fexp]. simpl bpow. rewrite !Rmult_1_r. reflexivity. apply He.
  Qed.
End Gen.

(** finiteness as an atomic proposition (a bare boolean equation would be
    picked up, and processed slowly, by [lia]) *)
Definition fin {p e} (x : binary_float p e) : Prop := is_finite x = true.

(** ** binary32 *)
Definition rnd32 : R -> R := rndg 24 128.
Definition rep32 (x : R) : Prop := generic_format radix2 (SpecFloat.fexp 24 128) x.
Definition rnd64 : R -> R := rndg 53 1024.
Definition rep64 (x : R) : Prop := generic_format radix2 (SpecFloat.fexp 53 1024) x.

Lemma rnd32_id : forall x, rep32 x -> rnd32 x = x. Proof. intros; apply rndg_id; auto. Qed.
Lemma rnd64_id : forall x, rep64 x -> rnd64 x = x. Proof. intros; apply rndg_id; auto. Qed.
Lemma rnd32_le : forall x y, (x <= y)%R -> (rnd32 x <= rnd32 y)%R.
Proof. intros. apply (rndg_le _ _ prec24); auto. Qed.
Lemma rnd64_le : forall x y, (x <= y)%R -> (rnd64 x <= rnd64 y)%R.
Proof. intros. apply (rndg_le _ _ prec53); auto. Qed.

Lemma rep32_IZR : forall z, Z.abs z <= 16777216 -> rep32 (IZR z).
Proof. intros. apply (rep_IZR _ _ prec24); [exact H|]. vm_compute. discriminate. Qed.
Lemma rep64_IZR : forall z, Z.abs z <= 9007199254740992 -> rep64 (IZR z).
Proof. intros. apply (rep_IZR _ _ prec53); [exact H|]. vm_compute. discriminate. Qed.
Lemma rep32_scaled : forall m e, Z.abs m <= 16777216 -> -149 <= e -> rep32 (IZR m * bpow radix2 e).
Proof. intros. apply (rep_F2R _ _ prec24); auto. Qed.
Lemma rep64_scaled : forall m e, Z.abs m <= 9007199254740992 -> -1074 <= e -> rep64 (IZR m * bpow radix2 e).
Proof. intros. apply (rep_F2R _ _ prec53); auto. Qed.

Lemma rnd32_le_r : forall x y, rep32 y -> (x <= y)%R -> (rnd32 x <= y)%R.
Proof. intros. apply (rndg_le_g _ _ prec24); auto. Qed.
Lemma rnd32_ge_r : forall x y, rep32 y -> (y <= x)%R -> (y <= rnd32 x)%R.
Proof. intros. apply (rndg_ge_g _ _ prec24); auto. Qed.
Lemma rnd64_le_r : forall x y, rep64 y -> (x <= y)%R -> (rnd64 x <= y)%R.
Proof. intros. apply (rndg_le_g _ _ prec53); auto. Qed.
Lemma rnd64_ge_r : forall x y, rep64 y -> (y <= x)%R -> (y <= rnd64 x)%R.
Proof. intros. apply (rndg_ge_g _ _ prec53); auto. Qed.

Lemma rnd32_err : forall x e, (Rabs x <= bpow radix2 e)%R -> -125 <= e ->
  (Rabs (rnd32 x - x) <= bpow radix2 (e - 25))%R.
Proof. intros. replace (e - 25) with (e - 24 - 1) by lia. apply (rndg_err _ _ prec24); auto. Qed.
Lemma rnd64_err : forall x e, (Rabs x <= bpow radix2 e)%R -> -1021 <= e ->
  (Rabs (rnd64 x - x) <= bpow radix2 (e - 54))%R.
Proof. intros. replace (e - 54) with (e - 53 - 1) by lia. apply (rndg_err _ _ prec53); auto. Qed.

Lemma fmul_spec : forall x y, fin x -> fin y ->
  (Rabs (b2r x * b2r y) <= bpow radix2 127)%R ->
  b2r (fmul x y) = rnd32 (b2r x * b2r y) /\ fin (fmul x y).
Proof. intros. apply mul_spec; auto. Qed.
Lemma fadd_spec : forall x y, fin x -> fin y ->
  (Rabs (b2r x + b2r y) <= bpow radix2 127)%R ->
  b2r (fadd x y) = rnd32 (b2r x + b2r y) /\ fin (fadd x y).
Proof. intros. apply add_spec; auto. Qed.
Lemma fsub_spec : forall x y, fin x -> fin y ->
  (Rabs (b2r x - b2r y) <= bpow radix2 127)%R ->
  b2r (fsub x y) = rnd32 (b2r x - b2r y) /\ fin (fsub x y).
Proof. intros. apply sub_spec; auto. Qed.
Lemma fdiv_spec : forall x y, fin x -> b2r y <> 0%R ->
  (Rabs (b2r x / b2r y) <= bpow radix2 127)%R ->
  b2r (fdiv x y) = rnd32 (b2r x / b2r y) /\ fin (fdiv x y).
Proof. intros. apply div_spec; auto. Qed.
Lemma dmul_spec : forall x y, fin x -> fin y ->
  (Rabs (b2r x * b2r y) <= bpow radix2 1023)%R ->
  b2r (dmul x y) = rnd64 (b2r x * b2r y) /\ fin (dmul x y).
Proof. intros. apply mul_spec; auto. Qed.
Lemma dadd_spec : forall x y, fin x -> fin y ->
  (Rabs (b2r x + b2r y) <= bpow radix2 1023)%R ->
  b2r (dadd x y) = rnd64 (b2r x + b2r y) /\ fin (dadd x y).
Proof. intros. apply add_spec; auto. Qed.
Lemma dsub_spec : forall x y, fin x -> fin y ->
  (Rabs (b2r x - b2r y) <= bpow radix2 1023)%R ->
  b2r (dsub x y) = rnd64 (b2r x - b2r y) /\ fin (dsub x y).
Proof. intros. apply sub_spec; auto. Qed.

Lemma ddiv_spec : forall x y, fin x -> b2r y <> 0%R ->
  (Rabs (b2r x / b2r y) <= bpow radix2 1023)%R ->
  b2r (ddiv x y) = rnd64 (b2r x / b2r y) /\ fin (ddiv x y).
Proof. intros. apply div_spec; auto. Qed.

Lemma bpow_Z : forall e, 0 <= e -> bpow radix2 e = IZR (2 ^ e).
Proof. intros. symmetry. apply (IZR_Zpower radix2). auto. Qed.

Lemma f_of_Z_exact : forall z, Z.abs z <= 16777216 ->
  b2r (f_of_Z z) = IZR z /\ fin (f_of_Z z).
Proof.
  intros. assert (F2R (Float radix2 z 0) = IZR z) as E by (unfold F2R; simpl; ring).
  destruct (norm_spec 24 128 prec24 emax24 z 0 false) as (A & B).
  - rewrite E, <- abs_IZR. apply Rle_trans with (bpow radix2 24).
    + rewrite bpow_Z by lia. apply IZR_le. exact H.
    + apply bpow_le. lia.
  - split; auto. unfold f_of_Z. rewrite A, E. apply rnd32_id, rep32_IZR; auto.
Qed.
Lemma d_of_Z_exact : forall z, Z.abs z <= 9007199254740992 ->
  b2r (d_of_Z z) = IZR z /\ fin (d_of_Z z).
Proof.
  intros. assert (F2R (Float radix2 z 0) = IZR z) as E by (unfold F2R; simpl; ring).
  destruct (norm_spec 53 1024 prec53 emax53 z 0 false) as (A & B).
  - rewrite E, <- abs_IZR. apply Rle_trans with (bpow radix2 53).
    + rewrite bpow_Z by lia. apply IZR_le. exact H.
    + apply bpow_le. lia.
  - split; auto. unfold d_of_Z. rewrite A, E. apply rnd64_id, rep64_IZR; auto.
Qed.

(** conversion of float to double is exact *)
Lemma d_of_f_exact : forall x, fin x ->
  b2r (d_of_f x) = b2r x /\ fin (d_of_f x).
Proof.
  intros [s|s| |s m e Hb] F; try discriminate; simpl; auto.
  assert (Hb' := Hb). apply andb_prop in Hb'. destruct Hb' as [Hc Hmx].
  assert (rep32 (F2R (Float radix2 (Zaux.cond_Zopp s (Zpos m)) e))) as R32.
  { change (F2R (Float radix2 (Zaux.cond_Zopp s (Zpos m)) e)) with (b2r (B754_finite s m e Hb : f32)).
    apply (generic_format_B2R 24 128). }
  assert (-149 <= e) as He.
  { pose proof (canonical_canonical_mantissa 24 128 s m e Hc) as C. unfold canonical, cexp, SpecFloat.fexp, SpecFloat.emin in C.
    cbn [Fexp] in C. lia. }
  assert (Z.abs (Zaux.cond_Zopp s (Zpos m)) < 16777216) as Hm.
  { pose proof (canonical_canonical_mantissa 24 128 s m e Hc) as C. unfold canonical, cexp, SpecFloat.fexp in C. cbn [Fexp] in C.
    rewrite mag_F2R_Zdigits in C by (destruct s; discriminate).
    assert (Zdigits radix2 (Zaux.cond_Zopp s (Zpos m)) <= 24) by lia.
    apply (Zpower_gt_Zdigits radix2 24); auto. }
  assert (rep64 (F2R (Float radix2 (Zaux.cond_Zopp s (Zpos m)) e))) as R64.
  { apply (rep_F2R 53 1024 prec53); [simpl in *; lia|]. change (SpecFloat.emin 53 1024) with (-1074). lia. }
  destruct (norm_spec 53 1024 prec53 emax53 (Zaux.cond_Zopp s (Zpos m)) e s) as (A & B).
  - apply Rlt_le. apply Rlt_trans with (bpow radix2 128).
    + change (F2R (Float radix2 (Zaux.cond_Zopp s (Zpos m)) e)) with (b2r (B754_finite s m e Hb : f32)).
      apply (abs_B2R_lt_emax 24 128).
    + apply bpow_lt. lia.
  - split; auto. rewrite A. apply rnd64_id; auto.
Qed.

(** double to float rounds *)
Lemma f_of_d_spec : forall x, fin x -> (Rabs (b2r x) <= bpow radix2 127)%R ->
  b2r (f_of_d x) = rnd32 (b2r x) /\ fin (f_of_d x).
Proof.
  intros [s|s| |s m e Hb] F L; try discriminate; simpl; auto.
  - split; auto. symmetry. apply rnd32_id. apply (rep32_IZR 0). lia.
  - apply (norm_spec 24 128 prec24 emax24); auto.
Qed.

Lemma f_to_Z_ok : forall lo hi x, fin x ->
  lo <= Ztrunc (b2r x) <= hi -> f_to_Z lo hi x = Ok (Ztrunc (b2r x)).
Proof.
  intros. unfold f_to_Z. rewrite H, (trunc_spec 24 128 emax24).
  destruct (Z.leb_spec lo (Ztrunc (b2r x))); [|lia].
  destruct (Z.leb_spec (Ztrunc (b2r x)) hi); [|lia]. reflexivity.
Qed.
Lemma d_to_Z_ok : forall lo hi x, fin x ->
  lo <= Ztrunc (b2r x) <= hi -> d_to_Z lo hi x = Ok (Ztrunc (b2r x)).
Proof.
  intros. unfold d_to_Z. rewrite H, (trunc_spec 53 1024 emax53).
  destruct (Z.leb_spec lo (Ztrunc (b2r x))); [|lia].
  destruct (Z.leb_spec (Ztrunc (b2r x)) hi); [|lia]. reflexivity.
Qed.

Lemma f_to_Z_inv : forall lo hi x z, f_to_Z lo hi x = Ok z ->
  fin x /\ z = Ztrunc (b2r x) /\ lo <= z <= hi.
Proof.
  intros lo hi x z H. unfold f_to_Z in H. unfold fin. destruct (is_finite x); [|discriminate].
  rewrite (trunc_spec 24 128 emax24) in H.
  destruct ((lo <=? Ztrunc (b2r x)) && (Ztrunc (b2r x) <=? hi)) eqn:E; [|discriminate].
  inversion H; subst. apply andb_prop in E. split; [auto|]. split; [auto|]. lia.
Qed.

Lemma Ztrunc_between : forall x lo hi, lo <= 0 -> 0 <= hi ->
  (IZR lo - 1 < x)%R -> (x < IZR hi + 1)%R -> lo <= Ztrunc x <= hi.
Proof.
  intros x lo hi Hlo Hhi H1 H2. unfold Ztrunc. destruct (Rlt_bool_spec x 0).
  - split; [|apply Z.le_trans with 0; [|lia]].
    + assert (lo - 1 < Zceil x); [|lia]. apply lt_IZR. rewrite minus_IZR.
      eapply Rlt_le_trans; [exact H1|]. apply Zceil_ub.
    + rewrite <- (Zceil_IZR 0). apply Zceil_le. lra.
  - split; [apply Z.le_trans with 0; [lia|]|].
    + rewrite <- (Zfloor_IZR 0). apply Zfloor_le. lra.
    + assert (Zfloor x < hi + 1); [|lia]. apply lt_IZR. rewrite plus_IZR.
      eapply Rle_lt_trans; [apply Zfloor_lb|exact H2].
Qed.

(** ** More facts *)

Lemma rnd32_opp : forall x, rnd32 (- x) = (- rnd32 x)%R.
Proof. intros. apply (rndg_opp 24 128). Qed.

(** rounding error without any condition on the size *)
Lemma rnd32_gen : forall x, (Rabs (rnd32 x - x) <= Rabs x * / 16777216 + bpow radix2 (-150))%R.
Proof.
  intros x.
  destruct (error_N_FLT radix2 (-149) 24 eq_refl (fun x => negb (Z.even x)) x) as (eps & eta & H1 & H2 & _ & H4).
  change (rnd32 x = x * (1 + eps) + eta)%R in H4. rewrite H4.
  replace (x * (1 + eps) + eta - x)%R with (x * eps + eta)%R by ring.
  eapply Rle_trans; [apply Rabs_triang|]. rewrite Rabs_mult.
  apply Rplus_le_compat.
  - apply Rmult_le_compat_l; [apply Rabs_pos|].
    eapply Rle_trans; [exact H1|]. change (bpow radix2 (- (24) + 1)) with (/ 8388608)%R. lra.
  - eapply Rle_trans; [exact H2|]. change (-150) with (-1 + -149). rewrite bpow_plus.
    change (bpow radix2 (-1)) with (/ 2)%R. apply Rle_refl.
Qed.

Lemma flt_spec : forall x y : f32, fin x -> fin y -> flt x y = Rlt_bool (b2r x) (b2r y).
Proof. intros. apply Bltb_correct; auto. Qed.
Lemma fle_spec : forall x y : f32, fin x -> fin y -> fle x y = Rle_bool (b2r x) (b2r y).
Proof. intros. apply Bleb_correct; auto. Qed.
Lemma feq_spec : forall x y : f32, fin x -> fin y -> feq x y = Req_bool (b2r x) (b2r y).
Proof. intros. apply Beqb_correct; auto. Qed.

Lemma dlt_spec : forall x y : f64, fin x -> fin y -> dlt x y = Rlt_bool (b2r x) (b2r y).
Proof. intros. unfold dlt. apply Bltb_correct; auto. Qed.
Lemma dle_spec : forall x y : f64, fin x -> fin y -> dle x y = Rle_bool (b2r x) (b2r y).
Proof. intros. unfold dle. apply Bleb_correct; auto. Qed.
Lemma deq_spec : forall x y : f64, fin x -> fin y -> deq x y = Req_bool (b2r x) (b2r y).
Proof. intros. unfold deq. apply Beqb_correct; auto. Qed.
Lemma f1_val : b2r f1 = 1%R /\ fin f1.
Proof. apply (f_of_Z_exact 1). lia. Qed.
Lemma f0_val : b2r f0 = 0%R /\ fin f0.
Proof. split; reflexivity. Qed.

Lemma fopp_spec : forall x : f32, b2r (fopp x) = (- b2r x)%R /\ (fin x -> fin (fopp x)).
Proof. intros. unfold fopp. split; [apply B2R_Bopp|]. unfold fin. rewrite is_finite_Bopp. auto. Qed.

Lemma rep32_b2r : forall x : f32, rep32 (b2r x).
Proof. intros. apply generic_format_B2R. Qed.
Lemma rep64_b2r : forall x : f64, rep64 (b2r x).
Proof. intros. apply generic_format_B2R. Qed.

Lemma rep32_opp : forall x, rep32 x -> rep32 (- x).
Proof. intros. apply generic_format_opp. auto. Qed.
Lemma rep32_bpow : forall e, -149 <= e -> rep32 (bpow radix2 e).
Proof.
  intros. replace (bpow radix2 e) with (IZR 1 * bpow radix2 e)%R by (simpl; ring).
  apply rep32_scaled; lia.
Qed.

(** [floor] *)
Lemma dfloor_spec : forall x : f64, fin x -> dfloor_Z x = Some (Zfloor (b2r x)).
Proof.
  intros [s|s| |s m e Hb] F; try discriminate; unfold dfloor_Z.
  - simpl. f_equal. symmetry. apply (Zfloor_IZR 0).
  - f_equal. unfold B2R, F2R. cbn [Fnum Fexp].
    set (n := cond_Zopp s (Z.pos m)). destruct (Z.leb_spec 0 e) as [He|He].
    + rewrite bpow_Z by lia. rewrite <- mult_IZR, Zfloor_IZR. reflexivity.
    + replace e with (- (- e)) at 2 by lia. rewrite bpow_opp, bpow_Z by lia.
      rewrite <- (Zfloor_div n (2 ^ (- e))); [reflexivity|]. apply Z.pow_nonzero; lia.
Qed.

Lemma d_floor_int_ok : forall x : f64, fin x -> INT_MIN <= Zfloor (b2r x) <= INT_MAX ->
  d_floor_int x = Ok (Zfloor (b2r x)).
Proof. intros. unfold d_floor_int. rewrite dfloor_spec by auto. apply int_val_ok. auto. Qed.
Lemma d_floor_int_inv : forall (x : f64) z, d_floor_int x = Ok z -> fin x /\ z = Zfloor (b2r x).
Proof.
  intros x z H. unfold d_floor_int in H. destruct (dfloor_Z x) eqn:E; [|discriminate].
  assert (fin x) as F. { destruct x; try discriminate; reflexivity. }
  rewrite dfloor_spec in E by auto. apply int_val_inv in H. inversion E. split; [auto|]. lia.
Qed.

(** Keep the float operations folded from here on (they only slow down
    arithmetic tactics); computation by [vm_compute] is not affected. *)
#[global] Opaque fadd fsub fmul fdiv dadd dsub dmul ddiv f_of_Z d_of_Z d_of_f f_of_d dlit flit.
