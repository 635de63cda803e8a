(** Property C48: pigment ("spectral") painting.

    With the pigment slider up, colours are not averaged but mixed as spectra:
    both colours become ten reflectances, these are multiplied with fractional
    powers (computed with the bit tricks of fastapprox), and the product becomes
    a colour again.  Bit exact, 32-bit floats with the double intermediates of C. *)
From Verif Require Import Base F32 F32Proofs Queue QueueProofs Blend Mask MaskProofs BlendProofs OpaProofs RrProofs
  MaskFloatProofs FarProofs Rect Arith Symmetry Plumb PlumbProofs P_Plumb Dab DabProofs HistoryProofs.
From Coq Require Import Reals Lra.
From Flocq Require Import Core.Core IEEE754.BinarySingleNaN.
From Verif Require Import KeepProofs SurfProofs P_Mask P_Blend P_Dab P_Surface Color Spectral Paint PaintProofs.
Local Open Scope Z_scope.

(** ** One pixel *)

(** the three modes in their pigment variant; the parameters are those of the
    ordinary modes *)
Definition run_pigment (d : ordinary) (m : Z) (p : pixel) : outcome pixel :=
  match d with
  | Normal c o => blend_normal_paint paint_mix c o m p
  | Eraser c ca o => blend_eraser_paint paint_mix c ca o m p
  | LockAlpha c o => blend_lock_alpha_paint paint_mix c o m p
  end.

(** Two of the modes raise a low opacity to 150 of 32768. *)
Definition lifted (d : ordinary) : ordinary :=
  match d with
  | Normal c o => Normal c (Z.max o 150)
  | Eraser c ca o => Eraser c ca o
  | LockAlpha c o => LockAlpha c (Z.max o 150)
  end.

(** The pixels lock-alpha cannot handle: the faintest there are (alpha 1 of
    32768), painted over with a weight other than nothing and everything. *)
Definition too_faint (d : ordinary) (m : Z) (p : pixel) : Prop :=
  match d with
  | LockAlpha c o => pa p = 1 /\ 0 < m * Z.max o 150 / full < full
  | _ => False
  end.

Lemma lifted_ok : forall d, ordinary_ok d -> ordinary_ok (lifted d).
Proof.
  intros [c o|c ca o|c o]; cbn [lifted ordinary_ok]; unfold frac; change full with 32768; intros H; try exact H; destruct H; split; auto; lia.
Qed.

Lemma nan_store : forall a, paint_store B754_nan a = UB.
Proof. intros a. unfold paint_store. destruct (f_of_Z a); reflexivity. Qed.

Lemma fmul_nan_l : forall y : f32, fmul B754_nan y = B754_nan. Proof. intros []; reflexivity. Qed.
Lemma fmul_nan_r : forall y : f32, fmul y B754_nan = B754_nan. Proof. intros []; reflexivity. Qed.
Lemma fadd_nan_r : forall y : f32, fadd y B754_nan = B754_nan. Proof. intros []; reflexivity. Qed.
Lemma nan_pow : forall x, fastpow x B754_nan = UB.
Proof. intros x. unfold fastpow. rewrite fmul_nan_l. reflexivity. Qed.

(** zero divided by zero makes the mixing undefined *)
Lemma mix_undefined : forall col p ob ca, u32 (0 + u32 (ob * pa p) / ONE) = 0 -> spectral_mix col p 0 ob ca = UB.
Proof.
  intros col p ob ca E. unfold spectral_mix. cbv zeta. rewrite E.
  assert (fdiv (f_of_Z 0) (f_of_Z 0) = B754_nan) as N by (apply B2SF_inj; vm_compute; reflexivity).
  rewrite N, fmul_nan_l. rewrite !spectral_is.
  set (l := combine (spectral_r_small mix64) _).
  assert (exists u v, l = u :: v) as (u & v & ->).
  { assert (length l = 10%nat) as L by reflexivity. destruct l; [discriminate L|]. eauto. }
  cbn [map combine mix_bands]. rewrite nan_pow. reflexivity.
Qed.

(** what the model does with an undefined mixing: the whole operation is undefined *)
Lemma undefined_normal : forall col o m p, pa p > 0 ->
  (forall v, spectral_mix col p (opa_a_of m (Z.max o 150)) (opa_b_of (opa_a_of m (Z.max o 150))) ONE <> Ok v) ->
  blend_normal_paint paint_mix col o m p = UB.
Proof.
  intros col o m p A N. unfold blend_normal_paint. cbv zeta. replace (pa p <=? 0) with false by lia.
  unfold paint_mix. destruct (spectral_mix _ _ _ _ _) as [v| |]; [exfalso; apply (N v); reflexivity|..]; rewrite nan_store; reflexivity.
Qed.
Lemma undefined_lock : forall col o m p, pa p > 0 ->
  (forall v, spectral_mix col p (u32 (opa_a_of m (Z.max o 150) * pa p) / ONE) (opa_b_of (opa_a_of m (Z.max o 150))) ONE <> Ok v) ->
  blend_lock_alpha_paint paint_mix col o m p = UB.
Proof.
  intros col o m p A N. unfold blend_lock_alpha_paint. cbv zeta. replace (pa p <=? 0) with false by lia.
  unfold paint_mix. destruct (spectral_mix _ _ _ _ _) as [v| |]; [exfalso; apply (N v); reflexivity|..]; rewrite nan_store; reflexivity.
Qed.
Lemma undefined_eraser : forall col ca o m p, pa p > 0 ->
  feq (clampf (spectral_blend_factor (fdiv (f_of_Z (pa p)) (f_of_Z ONE))) f0 f1) f0 = false ->
  (forall v, spectral_mix col p (opa_a_of m o) (opa_b_of (opa_a_of m o)) ca <> Ok v) ->
  blend_eraser_paint paint_mix col ca o m p = UB.
Proof.
  intros col ca o m p A S N. unfold blend_eraser_paint. cbv zeta. rewrite S. replace (pa p =? 0) with false by lia.
  cbn [negb andb]. unfold paint_mix.
  destruct (spectral_mix _ _ _ _ _) as [v| |]; [exfalso; apply (N v); reflexivity|..];
    match goal with |- context [if ?b then _ else _] => destruct b end; cbv beta iota; rewrite fmul_nan_r, fmul_nan_l, fadd_nan_r; reflexivity.
Qed.

(** nothing of the eraser is spectral on an empty pixel *)
Lemma empty_factor : feq (f_of_d (dsub (d_of_Z 1) (d_of_f (clampf (spectral_blend_factor (fdiv (f_of_Z 0) (f_of_Z ONE))) f0 f1)))) f0 = false.
Proof. vm_compute. reflexivity. Qed.

(** Every valid pixel, mask value and setting: pigment painting computes a valid
    pixel, and the alpha is what the ordinary mode gives; except for lock-alpha
    on the faintest pixels. *)
Theorem C48_pigment_valid_partial : forall d m p,
  ordinary_ok d -> frac m -> valid p -> ~ too_faint d m p ->
  exists p', run_pigment d m p = Ok p' /\ valid p' /\ pa p' = pa (exact (lifted d) m p).
Proof.
  intros d m p Hd Hm Vp NF. pose proof (lifted_ok d Hd) as Hl.
  destruct (C06_blend_exact_and_valid (lifted d) m p Hl Hm Vp) as (EX & VX).
  pose proof Vp as (Hr & Hg & Hb & Ha). unfold frac in Hm. rewrite fullE in *.
  destruct (Z.eq_dec (pa p) 0) as [Z0|NZ].
  - (* nothing there: the ordinary mode *)
    exists (exact (lifted d) m p). split; [|auto]. destruct d as [c o|c ca o|c o]; cbn [run_pigment].
    + unfold blend_normal_paint. cbv zeta. rewrite Z0 at 1. cbn [Z.leb]. exact EX.
    + rewrite <- EX. cbn [lifted run]. unfold blend_eraser_paint, blend_eraser. cbv zeta. rewrite !Z0. cbn [Z.eqb negb]. rewrite andb_false_r. cbn [obind].
      rewrite empty_factor. reflexivity.
    + unfold blend_lock_alpha_paint. cbv zeta. rewrite Z0 at 1. cbn [Z.leb]. exact EX.
  - destruct d as [c o|c ca o|c o]; cbn [run_pigment].
    + cbn [lifted ordinary_ok] in Hl. destruct Hl as ((Cr & Cg & Cb) & Ho). unfold frac in *. rewrite fullE in *.
      destruct (opa_a_exact m (Z.max o 150) Hm Ho) as (Ea & Ba).
      unfold blend_normal_paint. cbv zeta. replace (pa p <=? 0) with false by lia.
      cbn [lifted exact pa composite] in *. rewrite fullE in *. rewrite Ea. set (t := m * Z.max o 150 / ONE) in *. rewrite opa_b_exact by auto.
      destruct (alpha_exact t (ONE - t) (pa p)) as (-> & Bx); try lia.
      assert (1 <= t + (ONE - t) * pa p / ONE) as D1.
      { destruct (Z.eq_dec t 0) as [->|]; [rewrite Z.sub_0_r, Z.mul_comm, Z.div_mul by (onez; lia); lia|].
        assert (0 <= (ONE - t) * pa p / ONE) by (apply Z.div_pos; onez; nia). lia. }
      destruct (paint_mix_ok c p t (ONE - t) ONE) as (x & y & z & -> & Hx & Hy & Hz); try (onez; lia).
      set (a := t + (ONE - t) * pa p / ONE) in *.
      destruct (store_range x a Hx Bx) as (x' & -> & Rx). destruct (store_range y a Hy Bx) as (y' & -> & Ry).
      destruct (store_range z a Hz Bx) as (z' & -> & Rz). cbn [obind]. eexists. split; [reflexivity|]. split; [|reflexivity].
      unfold valid; cbn [pr pg pb pa]. rewrite fullE. lia.
    + cbn [lifted ordinary_ok] in Hl. destruct Hl as ((Cr & Cg & Cb) & Hca & Ho). unfold frac in *. rewrite fullE in *.
      destruct (opa_a_exact m o Hm Ho) as (Ea & Ba). cbn [lifted exact pa composite] in *. rewrite fullE in *.
      destruct VX as (X1 & X2 & X3 & X4). cbn [pr pg pb pa] in *. rewrite fullE in *.
      unfold blend_eraser_paint. cbv zeta. rewrite Ea. set (t := m * o / ONE) in *. rewrite opa_b_exact by auto.
      rewrite (u32_small (t * ca)) by (onez; nia). pose proof (scale_le t ca (proj1 Ba) Hca) as S. set (t2 := t * ca / ONE) in *.
      destruct (alpha_exact t2 (ONE - t) (pa p)) as (_ & AX); try lia.
      set (u := u32 (t2 + u32 ((ONE - t) * pa p) / ONE)).
      assert (u = t2 + (ONE - t) * pa p / ONE) as Eu.
      { unfold u. rewrite (u32_small (_ * _)) by (onez; nia). apply u32_small. onez. lia. }
      set (sf := clampf _ f0 f1).
      assert (iv 0 sf 1) as Hsf by (apply clamp_unit, factor_fin, fdiv_share; onez; lia).
      assert (forall cc q, 0 <= cc <= ONE -> 0 <= q <= pa p -> let v := u32 (u32 (t2 * cc) + u32 ((ONE - t) * q)) / ONE in 0 <= v <= u) as Add.
      { intros cc q Hcc Hq. cbv zeta. rewrite (u32_small (t2 * cc)), (u32_small (_ * q)) by (onez; nia). rewrite u32_small by (onez; nia).
        rewrite Eu. split; [apply Z.div_pos; onez; nia|]. apply chan_le_alpha; lia. }
      assert (u <= ONE) as U1 by lia. assert (0 <= u) as U0 by lia.
      clearbody u. clearbody sf.
      match goal with |- context [if negb (feq ?a f0) then ?b else (0, 0, 0)] => set (af := a); set (base := if negb (feq af f0) then b else (0, 0, 0)) end.
      assert (exists r0 g0 b0, base = (r0, g0, b0) /\ 0 <= r0 <= u /\ 0 <= g0 <= u /\ 0 <= b0 <= u) as (r0 & g0 & b0 & -> & R0 & G0 & B0).
      { unfold base. destruct (negb _); eexists _, _, _; (split; [reflexivity|]); [|lia]. split; [|split]; apply Add; auto. }
      assert (forall r g b, 0 <= r <= u -> 0 <= g <= u -> 0 <= b <= u -> exists p', Ok (mkPx (u16 r) (u16 g) (u16 b) (u16 u)) = Ok p' /\ valid p' /\ pa p' = t2 + (ONE - t) * pa p / ONE) as Fin.
      { intros r g b R G B. eexists. split; [reflexivity|]. unfold valid. cbn [pr pg pb pa]. rewrite fullE. onez. rewrite !u16_small by lia. lia. }
      destruct (negb (feq sf f0) && negb (pa p =? 0)); [|cbn [obind]; apply Fin; auto].
      destruct (paint_mix_ok c p t (ONE - t) ca) as (x & y & z & -> & Hx & Hy & Hz); try (onez; lia).
      { destruct (Z.eq_dec t 0) as [->|]; [rewrite Z.sub_0_r, Z.mul_comm, Z.div_mul by (onez; lia); lia|].
        assert (0 <= (ONE - t) * pa p / ONE) by (apply Z.div_pos; onez; nia). lia. }
      destruct (erase_range sf x r0 u Hsf Hx R0 U1) as (r & Er & Rr). destruct (erase_range sf y g0 u Hsf Hy G0 U1) as (g & Eg & Rg).
      destruct (erase_range sf z b0 u Hsf Hz B0 U1) as (b & Eb & Rb). fold af in Er, Eg, Eb. rewrite Er. cbn [obind]. rewrite Eg. cbn [obind]. rewrite Eb.
      cbn [obind]. apply Fin; auto.
    + cbn [lifted ordinary_ok] in Hl. destruct Hl as ((Cr & Cg & Cb) & Ho). unfold frac in *. rewrite fullE in *.
      destruct (opa_a_exact m (Z.max o 150) Hm Ho) as (Ea & Ba). cbn [too_faint] in NF. rewrite fullE in NF.
      unfold blend_lock_alpha_paint. cbv zeta. replace (pa p <=? 0) with false by lia.
      cbn [lifted exact pa composite] in *. rewrite Ea. set (t := m * Z.max o 150 / ONE) in *. rewrite opa_b_exact by auto.
      rewrite (u32_small (t * pa p)) by (onez; nia).
      assert (1 <= t * pa p / ONE + (ONE - t) * pa p / ONE) as D1.
      { onez. destruct (div_bounds (t * pa p)) as (Q1 & Q2); [nia|]. destruct (div_bounds ((32768 - t) * pa p)) as (Q3 & Q4); [nia|].
        assert (t = 0 \/ t = 32768 \/ 2 <= pa p) as [-> | [-> | ]] by lia.
        - change (0 * pa p / 32768) with 0. rewrite Z.sub_0_r, Z.mul_comm, Z.div_mul by lia. lia.
        - rewrite Z.mul_comm, Z.div_mul by lia. change ((32768 - 32768) * pa p / 32768) with 0. lia.
        - nia. }
      pose proof (scale_le t (pa p)) as S. 
      destruct (paint_mix_ok c p (t * pa p / ONE) (ONE - t) ONE) as (x & y & z & -> & Hx & Hy & Hz); try (onez; lia).
      destruct (store_range x (pa p) Hx) as (x' & -> & Rx); [lia|]. destruct (store_range y (pa p) Hy) as (y' & -> & Ry); [lia|].
      destruct (store_range z (pa p) Hz) as (z' & -> & Rz); [lia|]. cbn [obind]. eexists. split; [reflexivity|]. split; [|reflexivity].
      unfold valid; cbn [pr pg pb pa]. rewrite fullE. lia.
Qed.

(** The exception is real: on those pixels lock-alpha divides zero by zero and
    converts the outcome to an integer, which C leaves undefined. *)
Theorem C48_faint_undefined : forall d m p,
  ordinary_ok d -> frac m -> valid p -> (run_pigment d m p = UB <-> too_faint d m p).
Proof.
  intros d m p Hd Hm Vp. split.
  - intros U. destruct d as [c o|c ca o|c o].
    + destruct (C48_pigment_valid_partial (Normal c o) m p Hd Hm Vp) as (q & E & _); [intros []|]. rewrite U in E. discriminate E.
    + destruct (C48_pigment_valid_partial (Eraser c ca o) m p Hd Hm Vp) as (q & E & _); [intros []|]. rewrite U in E. discriminate E.
    + cbn [too_faint]. destruct (Z.eq_dec (pa p) 1) as [A|A]; [destruct (Z_lt_dec 0 (m * Z.max o 150 / full)) as [B|B]; [destruct (Z_lt_dec (m * Z.max o 150 / full) full) as [C|C]; [auto|]|]|];
        (destruct (C48_pigment_valid_partial (LockAlpha c o) m p Hd Hm Vp) as (q & E & _); [cbn [too_faint]; lia|rewrite U in E; discriminate E]).
  - destruct d as [c o|c ca o|c o]; cbn [too_faint]; intros F; try contradiction. destruct F as (A & B).
    pose proof (lifted_ok _ Hd) as Hl. cbn [lifted ordinary_ok] in Hl. destruct Hl as (_ & Ho). unfold frac in *. rewrite fullE in *.
    destruct (opa_a_exact m (Z.max o 150) Hm Ho) as (Ea & Ba).
    cbn [run_pigment]. apply undefined_lock; [lia|]. rewrite Ea, A, Z.mul_1_r. set (t := m * Z.max o 150 / ONE) in *.
    rewrite opa_b_exact by auto. onez. rewrite (u32_small t) by lia. rewrite (Z.div_small t) by lia. intros v.
    rewrite mix_undefined; [intros N; discriminate N|]. onez. rewrite A, Z.mul_1_r, (u32_small (32768 - t)), Z.div_small by lia. reflexivity.
Qed.

Theorem C48_lock_alpha_refuted : exists c o m p,
  colour_ok c /\ frac o /\ frac m /\ valid p /\ run_pigment (LockAlpha c o) m p = UB.
Proof.
  exists (mkRgb 32768 0 16384), 16384, 32768, (mkPx 1 1 1 1).
  unfold colour_ok, frac, valid, full. cbn [cr cg cb pr pg pb pa]. change (2 ^ 15) with 32768.
  repeat (split; [lia|]). vm_compute. reflexivity.
Qed.

Example C48_pixels :
  run_pigment (Normal (mkRgb 32768 0 16384) 16384) 32768 (mkPx 1000 20000 3000 30000) = Ok (mkPx 8140 5956 7754 31384) /\
  run_pigment (Eraser (mkRgb 32768 0 16384) 16000 16384) 32768 (mkPx 1000 20000 3000 30000) = Ok (mkPx 2670 8501 3757 23000) /\
  run_pigment (LockAlpha (mkRgb 32768 0 16384) 16384) 32768 (mkPx 1000 20000 3000 30000) = Ok (mkPx 7306 6043 7172 30000) /\
  ordinary_ok (Eraser (mkRgb 32768 0 16384) 16000 16384) /\ valid (mkPx 1000 20000 3000 30000) /\
  ~ too_faint (LockAlpha (mkRgb 32768 0 16384) 16384) 32768 (mkPx 1000 20000 3000 30000).
Proof.
  split; [vm_compute; reflexivity|]. split; [vm_compute; reflexivity|]. split; [vm_compute; reflexivity|].
  unfold ordinary_ok, colour_ok, frac, valid, too_faint, full. cbn [cr cg cb pr pg pb pa]. change (2 ^ 15) with 32768. lia.
Qed.

(** ** The surface *)

(** any mixture of normal painting, erasing and lock-alpha, with any amount of
    pigment *)
Definition painting_dab (d : dab) : Prop :=
  plain_numbers d /\ (value (d_colorize d) <= 0)%R /\ (value (d_poster d) <= 0)%R.

Section Ops.
  Variables (trig : trig_oracle) (G : trigops num32).

  Lemma painting_modes : forall d o, painting_dab d -> prepare_op d = Ok (Some o) ->
    forall b f, In b (modes paint_mix o) -> b = Ok f ->
    exists k, ordinary_ok k /\ ((forall m p, f m p = run k m p) \/ (forall m p, f m p = run_pigment k m p)).
  Proof.
    intros d o ((Fr & Fg & Fb & Fo & Fa & Fl & Fc & Fp & Fn) & Zc & Zp) P b f I E.
    destruct (prepare_blend d o P) as ((r & g & bl & Er & Eg & Eb & Ec) & Ea & Eo & El & Ek & Et & En & Em).
    apply scale15_frac in Er; [|apply unit_clamp; exact Fr]. apply scale15_frac in Eg; [|apply unit_clamp; exact Fg].
    apply scale15_frac in Eb; [|apply unit_clamp; exact Fb].
    assert (colour_ok (o_col o)) as C by (rewrite Ec; repeat split; cbn [cr cg cb]; apply Er || apply Eg || apply Eb).
    pose proof (unit_clamp _ Fa) as Ua. pose proof (unit_clamp _ Fo) as Uo. pose proof (unit_clamp _ Fl) as Ul.
    pose proof (unit_clamp _ Fc) as Uc. pose proof (unit_clamp _ Fp) as Up. pose proof (unit_clamp _ Fn) as Un.
    pose proof (unit_compl _ Ul) as Ul'. pose proof (unit_compl _ Uc) as Uc'. pose proof (unit_compl _ Up) as Up'. pose proof (unit_compl _ Un) as Un'.
    assert (unit_f (o_normal o)) as Unm by (rewrite Em; auto using unit_mul, unit_f1).
    unfold modes in I.
    rewrite (truthy_zero (o_colorize o)) in I by (rewrite Ek; (apply Uc || (apply clamp_low; auto))).
    rewrite (truthy_zero (o_poster o)) in I by (rewrite Et; (apply Up || (apply clamp_low; auto))).
    rewrite !app_nil_r in I. apply in_app_or in I. destruct I as [I|I].
    - destruct (flt (o_paint o) f1); [|destruct I]. apply in_app_or in I. destruct I as [I|I].
      + destruct (truthy (o_normal o)); [|destruct I]. destruct I as [<-|[]]. destruct (feq (o_alpha o) f1).
        * inv_bind E. injection E as <-. exists (Normal (o_col o) v). split; [|left; reflexivity]. split; [exact C|].
          eapply scale15_frac; [|exact E0]. rewrite Eo, En. auto using unit_mul.
        * inv_bind E. inv_bind E. injection E as <-. exists (Eraser (o_col o) v v0). split; [|left; reflexivity]. split; [exact C|]. split.
          -- eapply scale15_frac; [|exact E0]. rewrite Ea. exact Ua.
          -- eapply scale15_frac; [|exact E1]. rewrite Eo, En. auto using unit_mul.
      + destruct (_ && _); [|destruct I]. destruct I as [<-|[]]. inv_bind E. injection E as <-.
        exists (LockAlpha (o_col o) v). split; [|left; reflexivity]. split; [exact C|].
        eapply scale15_frac; [|exact E0]. rewrite Eo, En, El, Ek, Et. auto using unit_mul.
    - destruct (flt f0 (o_paint o)); [|destruct I]. apply in_app_or in I. destruct I as [I|I].
      + destruct (truthy (o_normal o)); [|destruct I]. destruct I as [<-|[]]. destruct (feq (o_alpha o) f1).
        * inv_bind E. injection E as <-. exists (Normal (o_col o) v). split; [|right; reflexivity]. split; [exact C|].
          eapply scale15_frac; [|exact E0]. rewrite Eo, En. auto using unit_mul.
        * inv_bind E. inv_bind E. injection E as <-. exists (Eraser (o_col o) v v0). split; [|right; reflexivity]. split; [exact C|]. split.
          -- eapply scale15_frac; [|exact E0]. rewrite Ea. exact Ua.
          -- eapply scale15_frac; [|exact E1]. rewrite Eo, En. auto using unit_mul.
      + destruct (_ && _); [|destruct I]. destruct I as [<-|[]]. inv_bind E. injection E as <-.
        exists (LockAlpha (o_col o) v). split; [|right; reflexivity]. split; [exact C|].
        eapply scale15_frac; [|exact E0]. rewrite Eo, En, El, Ek, Et. auto using unit_mul.
  Qed.

  Lemma pigment_keeps : forall k m p p', ordinary_ok k -> frac m -> valid p -> run_pigment k m p = Ok p' -> valid p'.
  Proof.
    intros k m p p' Ho Hm Vp E. destruct (C48_pigment_valid_partial k m p Ho Hm Vp) as (q & E' & V & _); [|congruence].
    intros F. apply (C48_faint_undefined k m p Ho Hm Vp) in F. rewrite F in E. discriminate E.
  Qed.

  Lemma painting_step : forall d o tiles t mem mem', painting_dab d -> regular trig d -> prepare_op d = Ok (Some o) ->
    op_tiles o = Ok tiles -> In t tiles ->
    tile_valid mem -> process_op trig paint_mix t o mem = Ok mem' -> tile_valid mem'.
  Proof.
    intros d o tiles t mem mem' O R P ET It (L & V0) H.
    pose proof (regular_op trig d o R P) as [D Rr].
    destruct (process_op_px trig paint_mix t o mem mem' L H) as (L' & V & x0 & y0 & x1 & y1 & B & Z & Vals & Px). cbv zeta in *.
    split; [exact L'|]. intros i j Hi Hj.
    pose proof D as [Dx Dy (Fr & Hr) Dh Ds Da Dt].
    assert (Hr' : (/ 16 <= b2r (o_radius o) <= 65536)%R) by lra.
    destruct (dab_tiles_ok _ _ _ Dx Dy Fr Hr') as (ts' & ET' & Mem). unfold op_tiles in ET. rewrite ET' in ET. injection ET as ->.
    apply Mem in It. destruct It as (Itx & Ity).
    destruct (local_far _ _ _ i Dx Fr Hr' Itx) as (Bx & _). destruct (local_far _ _ _ j Dy Fr Hr' Ity) as (By & _).
    assert (frac (V i j)) as Fv.
    { destruct (Z.eq_dec (V i j) 0) as [->|NV]; [unfold frac, full; lia|]. destruct (Z _ _ NV) as (_ & _ & X & Y).
      pose proof (Vals i j X Y) as E.
      destruct (mask_value_ok trig (fsub (o_x o) (f_of_Z (64 * fst t))) (fsub (o_y o) (f_of_Z (64 * snd t))) (o_radius o) (o_hard o) (o_soft o) (o_aspect o) (o_angle o) i j x0 y0 x1 y1)
        as (v & E2 & Rv); auto; [constructor; auto|]. rewrite E in E2. injection E2 as <-. exact Rv. }
    eapply (blend_all_keeps paint_mix valid); [|apply V0; [exact Hi|exact Hj]|apply Px; auto].
    intros b f q q' I Eb Vq Eq. destruct (painting_modes d o O P b f I Eb) as (k & Ok & [Run|Run]); rewrite Run in Eq.
    - destruct (C06_blend_exact_and_valid k (V i j) q Ok Fv Vq) as (E & Vd). congruence.
    - eapply pigment_keeps; eauto.
  Qed.

  (** Every pixel of the canvas stays valid (colours at most alpha, alpha at most
      full scale) whatever is painted with normal painting, erasing and lock-alpha
      and any amount of pigment, with the mixing the code really does; at every
      moment the history gets to. *)
  Theorem C48_surface_stays_valid : forall ok junk pix0 ts0 evs ts rs,
    tiled_surface_init G ok junk pix0 = Ok ts0 -> canvas pix0 ->
    (forall X Y, valid (pixel_of pix0 X Y)) ->
    srun trig paint_mix G ts0 evs = Ok (ts, rs) ->
    (forall d, In d (placed trig paint_mix G ts0 evs) -> regular trig d /\ painting_dab d) ->
    forall X Y, valid (pixel_of (sf_pix (ts_sf ts)) X Y).
  Proof.
    intros ok junk pix0 ts0 evs ts rs I0 C0 V0 R A X Y.
    unfold tiled_surface_init in I0. inv_bind I0. injection I0 as <-.
    set (ts0 := mkTS _ _ _ _ _) in *.
    set (P := fun (_ : tile) mem => tile_valid mem).
    set (Q := fun (t : tile) (o : op) => exists d tiles, regular trig d /\ painting_dab d /\ prepare_op d = Ok (Some o) /\ op_tiles o = Ok tiles /\ In t tiles).
    assert (step : forall t o mem mem', Q t o -> P t mem -> process_op trig paint_mix t o mem = Ok mem' -> P t mem').
    { intros t o mem mem' (d & tiles & Rd & Od & Pd & ET & It) HP H. eapply painting_step; eauto. }
    assert (keeps op (list Z) P Q (ts_sf ts0)) as K0.
    { apply fresh_keeps. intros (tx, ty). split; [apply C0|]. intros i j Hi Hj.
      specialize (V0 (64 * tx + i) (64 * ty + j)). unfold pixel_of in V0.
      replace ((64 * tx + i) / 64) with tx in V0 by (apply Z.div_unique with i; lia).
      replace ((64 * ty + j) / 64) with ty in V0 by (apply Z.div_unique with j; lia).
      replace ((64 * tx + i) mod 64) with i in V0 by (apply Z.mod_unique with tx; lia).
      replace ((64 * ty + j) mod 64) with j in V0 by (apply Z.mod_unique with ty; lia). exact V0. }
    pose proof (srun_keeps trig paint_mix G P Q step evs ts0 [] ts rs R K0) as K.
    destruct K as [_ KP _].
    - intros d Id o tiles t Po ET It. destruct (A d Id) as (Rd & Od). exists d, tiles. auto.
    - destruct (KP (X / 64, Y / 64)) as (_ & KV). apply KV; [pose proof (Z.mod_pos_bound X 64)|pose proof (Z.mod_pos_bound Y 64)]; lia.
  Qed.
End Ops.

(** two ordinary dabs, then one with half pigment over them *)
Definition pigment_dab (x y radius : f32) : dab :=
  mkDab x y radius f0 f1 f0 f1 f1 f0 f1 f1 f0 f0 f0 f0 f0 (flit 1 2).
Definition pigment_after (evs : list sev) (X Y : Z) : option pixel :=
  match tiled_surface_init no_turn true 0 blank with
  | Ok ts => match srun flat paint_mix no_turn ts (evs ++ [P_Dab.finish]) with
             | Ok (ts, _) => Some (pixel_of (sf_pix (ts_sf ts)) X Y) | _ => None end
  | _ => None
  end.
Example C48_surface_case :
  pigment_after two_dabs 66 4 = Some (mkPx 18642 18642 18642 18642) /\
  match pigment_after (two_dabs ++ [SDab (pigment_dab (f_of_Z 66) (f_of_Z 4) (f_of_Z 2))]) 66 4 with
  | Some (mkPx r g b a) => (0 <? r) && (r <? g) && (g <=? a) && (18642 <? a)
  | None => false
  end = true.
Proof. split; vm_compute; reflexivity. Qed.
Example C48_surface_hypotheses : forall x y r, Z.abs x <= 1048576 -> Z.abs y <= 1048576 -> 1 <= r <= 65536 ->
  let d := pigment_dab (f_of_Z x) (f_of_Z y) (f_of_Z r) in
  painting_dab d /\ regular flat d.
Proof.
  intros x y r Hx Hy Hr. cbv zeta. split; [|destruct (proj1 (C05_fine_case x y r (0, 0) Hx Hy Hr)); constructor; assumption].
  destruct f1_val as (V1 & F1). destruct f0_val as (V0 & F0). destruct half_lit as (_ & FH).
  unfold painting_dab, plain_numbers. cbn [pigment_dab d_r d_g d_b d_opaque d_alpha d_lock d_colorize d_poster d_paint].
  change value with (@b2r 24 128). rewrite V0. repeat split; try assumption; try lra.
Qed.

Print Assumptions C48_pigment_valid_partial.
Print Assumptions C48_faint_undefined.
Print Assumptions C48_lock_alpha_refuted.
Print Assumptions C48_surface_stays_valid.
