(** Properties C06, C07 for whole surfaces: what every history of dabs, reads,
    symmetry changes and flushes leaves at every pixel, whatever the backend
    grants.  Bit exact; [trig] is sin and cos of a dab's angle, [mix] the
    spectral colour mixing, [G] sin and cos of the symmetry transforms. *)
From Verif Require Import Base F32 F32Proofs Queue QueueProofs Blend Mask MaskProofs BlendProofs OpaProofs RrProofs
  MaskFloatProofs FarProofs Rect Arith Symmetry Plumb PlumbProofs P_Plumb Dab DabProofs HistoryProofs.
From Coq Require Import Reals Lra.
From Flocq Require Import Core.Core IEEE754.BinarySingleNaN.
From Verif Require SymmetryProofs.
From Verif Require Import KeepProofs SurfProofs P_Mask P_Blend P_Dab.
Local Open Scope Z_scope.

(** ** Settings *)
(** a float in [0, 1] *)
Definition unit_f (x : f32) : Prop := fin x /\ (0 <= b2r x <= 1)%R.

Lemma unit_clamp : forall x : f32, fin x -> unit_f (clamp01 x).
Proof.
  intros x F. destruct (clamp01_val x F) as (G & H). split; [exact G|].
  destruct H as [(H & E)|[(H & E)|(H & E)]]; rewrite E; lra.
Qed.
Lemma clamp_low : forall x : f32, fin x -> (b2r x <= 0)%R -> b2r (clamp01 x) = 0%R.
Proof. intros x F L. destruct (clamp01_val x F) as (_ & [(H & E)|[(H & E)|(H & E)]]); rewrite E; lra. Qed.
Lemma clamp_high : forall x : f32, fin x -> (1 <= b2r x)%R -> b2r (clamp01 x) = 1%R.
Proof. intros x F L. destruct (clamp01_val x F) as (_ & [(H & E)|[(H & E)|(H & E)]]); rewrite E; lra. Qed.

Lemma rep32_0 : rep32 0%R. Proof. apply (rep32_IZR 0). lia. Qed.
Lemma rep32_1 : rep32 1%R. Proof. apply (rep32_IZR 1). lia. Qed.

Lemma unit_mul : forall x y, unit_f x -> unit_f y -> unit_f (fmul x y).
Proof.
  intros x y (Fx & Hx) (Fy & Hy).
  assert (0 <= b2r x * b2r y <= 1)%R as P.
  { split; [apply Rmult_le_pos; lra|]. replace 1%R with (1 * 1)%R by ring. apply Rmult_le_compat; lra. }
  destruct (fmul_spec x y Fx Fy) as (E & F).
  { rewrite Rabs_pos_eq by lra. apply Rle_trans with (bpow radix2 0); [simpl; lra|apply bpow_le; lia]. }
  split; [exact F|]. rewrite E. split; [apply rnd32_ge_r; [exact rep32_0|lra]|apply rnd32_le_r; [exact rep32_1|lra]].
Qed.
Lemma unit_compl : forall x, unit_f x -> unit_f (fsub f1 x).
Proof.
  intros x (Fx & Hx). destruct f1_val as (V1 & F1).
  destruct (fsub_spec f1 x F1 Fx) as (E & F).
  { rewrite V1, Rabs_pos_eq by lra. apply Rle_trans with (bpow radix2 0); [simpl; lra|apply bpow_le; lia]. }
  split; [exact F|]. rewrite E, V1. split; [apply rnd32_ge_r; [exact rep32_0|lra]|apply rnd32_le_r; [exact rep32_1|lra]].
Qed.
Lemma scale15_frac : forall x k, unit_f x -> scale15 x = Ok k -> frac k.
Proof.
  intros x k (Fx & Hx) H. unfold scale15, f_to_u16 in H. apply f_to_Z_inv in H. destruct H as (F & E & R).
  destruct (f_of_Z_exact ONE) as (VO & FO); [rewrite ONE_val; lia|].
  assert (0 <= b2r x * b2r (f_of_Z ONE) <= 32768)%R as P.
  { rewrite VO, ONE_val. split; [apply Rmult_le_pos; lra|lra]. }
  destruct (fmul_spec x (f_of_Z ONE) Fx FO) as (E2 & _).
  { rewrite Rabs_pos_eq by lra. apply Rle_trans with (bpow radix2 15); [simpl; lra|apply bpow_le; lia]. }
  split; [lia|]. rewrite E, E2. change full with 32768. rewrite <- (Ztrunc_IZR 32768). apply Ztrunc_le.
  apply rnd32_le_r; [apply (rep32_IZR 32768); lia|lra].
Qed.

Lemma truthy_zero : forall x : f32, fin x -> b2r x = 0%R -> truthy x = false.
Proof.
  intros x F E. destruct f0_val as (V0 & F0). unfold truthy. rewrite feq_spec, V0, E by auto. rewrite Req_bool_true; auto.
Qed.
Lemma mul_zero_l : forall x y : f32, unit_f x -> unit_f y -> b2r x = 0%R -> b2r (fmul x y) = 0%R.
Proof.
  intros x y (Fx & Hx) (Fy & Hy) Z. destruct (fmul_spec x y Fx Fy) as (E & _).
  { rewrite Z, Rmult_0_l, Rabs_R0. apply bpow_ge_0. }
  rewrite E, Z, Rmult_0_l. apply rnd32_id. exact rep32_0.
Qed.
Lemma mul_zero_r : forall x y : f32, unit_f x -> unit_f y -> b2r y = 0%R -> b2r (fmul x y) = 0%R.
Proof.
  intros x y (Fx & Hx) (Fy & Hy) Z. destruct (fmul_spec x y Fx Fy) as (E & _).
  { rewrite Z, Rmult_0_r, Rabs_R0. apply bpow_ge_0. }
  rewrite E, Z, Rmult_0_r. apply rnd32_id. exact rep32_0.
Qed.
Lemma compl_one : forall x, unit_f x -> b2r x = 1%R -> b2r (fsub f1 x) = 0%R.
Proof.
  intros x (Fx & Hx) Z. destruct f1_val as (V1 & F1). destruct (fsub_spec f1 x F1 Fx) as (E & F).
  { rewrite V1, Z, Rminus_diag_eq, Rabs_R0 by reflexivity. apply bpow_ge_0. }
  rewrite E, V1, Z, Rminus_diag_eq by reflexivity. apply rnd32_id. exact rep32_0.
Qed.
Lemma unit_f1 : unit_f f1. Proof. destruct f1_val as (V1 & F1). split; [exact F1|rewrite V1; lra]. Qed.

(** ** Dabs *)
(** the settings other than position, size and shape are finite numbers *)
Definition plain_numbers (d : dab) : Prop :=
  finite (d_r d) /\ finite (d_g d) /\ finite (d_b d) /\ finite (d_opaque d) /\ finite (d_alpha d) /\
  finite (d_lock d) /\ finite (d_colorize d) /\ finite (d_poster d) /\ finite (d_paint d).
(** neither colorize nor posterize nor spectral paint is used: any mixture of
    normal painting, erasing and lock-alpha *)
Definition ordinary_dab (d : dab) : Prop :=
  plain_numbers d /\ (value (d_colorize d) <= 0)%R /\ (value (d_poster d) <= 0)%R /\ (value (d_paint d) <= 0)%R.
(** one of lock-alpha, colorize and posterize is used at full strength *)
Definition alpha_locked (d : dab) : Prop :=
  finite (d_lock d) /\ finite (d_colorize d) /\ finite (d_poster d) /\
  (1 <= value (d_lock d) \/ 1 <= value (d_colorize d) \/ 1 <= value (d_poster d))%R.

Lemma prepare_blend : forall d o, prepare_op d = Ok (Some o) ->
  (exists r g b, scale15 (clamp01 (d_r d)) = Ok r /\ scale15 (clamp01 (d_g d)) = Ok g /\ scale15 (clamp01 (d_b d)) = Ok b /\ o_col o = mkRgb r g b) /\
  o_alpha o = clamp01 (d_alpha d) /\ o_opaque o = clamp01 (d_opaque d) /\
  o_lock o = clamp01 (d_lock d) /\ o_colorize o = clamp01 (d_colorize d) /\ o_poster o = clamp01 (d_poster d) /\ o_paint o = clamp01 (d_paint d) /\
  o_normal o = fmul (fmul (fmul f1 (fsub f1 (clamp01 (d_lock d)))) (fsub f1 (clamp01 (d_colorize d)))) (fsub f1 (clamp01 (d_poster d))).
Proof.
  intros d o H. unfold prepare_op in H. inv_bind H. destruct (_ || _) in H; [discriminate|].
  inv_bind H. inv_bind H. inv_bind H. injection H as <-. cbn [o_col o_alpha o_opaque o_lock o_colorize o_poster o_paint o_normal].
  split; [|repeat split]. exists v0, v1, v2. auto.
Qed.

Section Ops.
  Variables (trig : trig_oracle) (mix : mix_oracle) (G : trigops num32).
  Notation srun := (srun trig mix G).
  Notation placed := (placed trig mix G).

  (** an operation of an ordinary dab is made of ordinary blend modes *)
  Lemma ordinary_modes : forall d o, ordinary_dab d -> prepare_op d = Ok (Some o) ->
    forall b f, In b (modes mix o) -> b = Ok f -> exists k, ordinary_ok k /\ forall m p, f m p = run k m p.
  Proof.
    intros d o ((Fr & Fg & Fb & Fo & Fa & Fl & Fc & Fp & Fn) & Zc & Zp & Zn) P b f I E.
    destruct (prepare_blend d o P) as ((r & g & bl & Er & Eg & Eb & Ec) & Ea & Eo & El & Ek & Et & En & Em).
    apply scale15_frac in Er; [|apply unit_clamp; exact Fr]. apply scale15_frac in Eg; [|apply unit_clamp; exact Fg].
    apply scale15_frac in Eb; [|apply unit_clamp; exact Fb].
    assert (colour_ok (o_col o)) as C by (rewrite Ec; repeat split; cbn [cr cg cb]; apply Er || apply Eg || apply Eb).
    pose proof (unit_clamp _ Fa) as Ua. pose proof (unit_clamp _ Fo) as Uo. pose proof (unit_clamp _ Fl) as Ul.
    pose proof (unit_clamp _ Fc) as Uc. pose proof (unit_clamp _ Fp) as Up. pose proof (unit_clamp _ Fn) as Un.
    pose proof (unit_compl _ Ul) as Ul'. pose proof (unit_compl _ Uc) as Uc'. pose proof (unit_compl _ Up) as Up'. pose proof (unit_compl _ Un) as Un'.
    assert (unit_f (o_normal o)) as Unm by (rewrite Em; auto using unit_mul, unit_f1).
    assert (flt f0 (o_paint o) = false) as NP.
    { destruct f0_val as (V0 & F0). rewrite En, flt_spec, V0, clamp_low by (auto; apply Un). apply Rlt_bool_false. lra. }
    unfold modes in I. rewrite NP in I.
    rewrite (truthy_zero (o_colorize o)) in I by (rewrite Ek; (apply Uc || (apply clamp_low; auto))).
    rewrite (truthy_zero (o_poster o)) in I by (rewrite Et; (apply Up || (apply clamp_low; auto))).
    rewrite !app_nil_r in I. destruct (flt (o_paint o) f1); [|destruct I].
    apply in_app_or in I. destruct I as [I|I].
    - destruct (truthy (o_normal o)); [|destruct I]. destruct I as [<-|[]]. destruct (feq (o_alpha o) f1).
      + inv_bind E. injection E as <-. exists (Normal (o_col o) v). split; [|reflexivity]. split; [exact C|].
        eapply scale15_frac; [|exact E0]. rewrite Eo, En. auto using unit_mul.
      + inv_bind E. inv_bind E. injection E as <-. exists (Eraser (o_col o) v v0). split; [|reflexivity]. split; [exact C|]. split.
        * eapply scale15_frac; [|exact E0]. rewrite Ea. exact Ua.
        * eapply scale15_frac; [|exact E1]. rewrite Eo, En. auto using unit_mul.
    - destruct (_ && _); [|destruct I]. destruct I as [<-|[]]. inv_bind E. injection E as <-.
      exists (LockAlpha (o_col o) v). split; [|reflexivity]. split; [exact C|].
      eapply scale15_frac; [|exact E0]. rewrite Eo, En, El, Ek, Et. auto using unit_mul.
  Qed.

  (** what an operation does to a pixel follows from what its modes do *)
  Lemma blend_all_keeps : forall (P : pixel -> Prop) o m p p',
    (forall b f q q', In b (modes mix o) -> b = Ok f -> P q -> f m q = Ok q' -> P q') ->
    P p -> blend_all mix o m p = Ok p' -> P p'.
  Proof.
    intros P o m p p' K Hp H. unfold blend_all in H. destruct (m =? 0); [congruence|].
    revert p Hp H. induction (modes mix o) as [|b bs IH]; intros p Hp H; cbn [ofold] in H; [congruence|].
    inv_bind H. inv_bind E. eapply IH; [| |exact H].
    - intros b' f q q' I. apply K. right. exact I.
    - eapply K; [left; reflexivity|exact E0|exact Hp|exact E].
  Qed.

  Definition tile_valid (mem : list Z) : Prop := tile_ok mem /\ forall i j, 0 <= i <= 63 -> 0 <= j <= 63 -> valid (pixel_at mem i j).

  Lemma ordinary_step : forall d o tiles t mem mem', ordinary_dab d -> regular trig d -> prepare_op d = Ok (Some o) ->
    op_tiles o = Ok tiles -> In t tiles ->
    tile_valid mem -> process_op trig mix t o mem = Ok mem' -> tile_valid mem'.
  Proof.
    intros d o tiles t mem mem' O R P ET It (L & V0) H.
    pose proof (regular_op trig d o R P) as [D Rr].
    destruct (process_op_px trig mix t o mem mem' L H) as (L' & V & x0 & y0 & x1 & y1 & B & Z & Vals & Px). cbv zeta in *.
    split; [exact L'|]. intros i j Hi Hj.
    pose proof D as [Dx Dy (Fr & Hr) Dh Ds Da Dt].
    assert (Hr' : (/ 16 <= b2r (o_radius o) <= 65536)%R) by lra.
    destruct (dab_tiles_ok _ _ _ Dx Dy Fr Hr') as (ts' & ET' & Mem). unfold op_tiles in ET. rewrite ET' in ET. injection ET as ->.
    apply Mem in It. destruct It as (Itx & Ity).
    destruct (local_far _ _ _ i Dx Fr Hr' Itx) as (Bx & _). destruct (local_far _ _ _ j Dy Fr Hr' Ity) as (By & _).
    assert (frac (V i j)) as Fv.
    { destruct (Z.eq_dec (V i j) 0) as [->|NV]; [unfold frac, full; lia|]. destruct (Z _ _ NV) as (_ & _ & X & Y).
      pose proof (Vals i j X Y) as E.
      destruct (mask_value_ok trig (fsub (o_x o) (f_of_Z (64 * fst t))) (fsub (o_y o) (f_of_Z (64 * snd t))) (o_radius o) (o_hard o) (o_soft o) (o_aspect o) (o_angle o) i j x0 y0 x1 y1)
        as (v & E2 & Rv); auto; [constructor; auto|]. rewrite E in E2. injection E2 as <-. exact Rv. }
    eapply (blend_all_keeps valid); [|apply V0; [exact Hi|exact Hj]|apply Px; auto].
    intros b f q q' I Eb Vq Eq. destruct (ordinary_modes d o O P b f I Eb) as (k & Ok & Run). rewrite Run in Eq.
    destruct (C06_blend_exact_and_valid k (V i j) q Ok Fv Vq) as (E & Vd). congruence.
  Qed.

  (** *** C06 *)
  (** If every pixel of the initial canvas is valid (colours at most alpha, alpha
      at most full scale) then every pixel stays valid: after any history - any
      dabs using normal painting, erasing and lock-alpha in any mixture, with any
      symmetry, reads and flushes in any order, tiles refused at any time - and
      also in the middle of it (take the history up to that point).
      [placed] are the dabs drawn and the copies the symmetry makes of them;
      [regular]: positions within 2^20, radius at most 2^16, finite shape.
      The claim says nothing about spectral paint, colorize and posterize. *)
  Theorem C06_surface_stays_valid : forall ok junk pix0 ts0 evs ts rs,
    tiled_surface_init G ok junk pix0 = Ok ts0 -> canvas pix0 ->
    (forall X Y, valid (pixel_of pix0 X Y)) ->
    srun ts0 evs = Ok (ts, rs) ->
    (forall d, In d (placed ts0 evs) -> regular trig d /\ ordinary_dab d) ->
    forall X Y, valid (pixel_of (sf_pix (ts_sf ts)) X Y).
  Proof.
    intros ok junk pix0 ts0 evs ts rs I0 C0 V0 R A X Y.
    unfold tiled_surface_init in I0. inv_bind I0. injection I0 as <-.
    set (ts0 := mkTS _ _ _ _ _) in *.
    set (P := fun (_ : tile) mem => tile_valid mem).
    set (Q := fun (t : tile) (o : op) => exists d tiles, regular trig d /\ ordinary_dab d /\ prepare_op d = Ok (Some o) /\ op_tiles o = Ok tiles /\ In t tiles).
    assert (step : forall t o mem mem', Q t o -> P t mem -> process_op trig mix t o mem = Ok mem' -> P t mem').
    { intros t o mem mem' (d & tiles & Rd & Od & Pd & ET & It) HP H. eapply ordinary_step; eauto. }
    assert (keeps op (list Z) P Q (ts_sf ts0)) as K0.
    { apply fresh_keeps. intros (tx, ty). split; [apply C0|]. intros i j Hi Hj.
      specialize (V0 (64 * tx + i) (64 * ty + j)). unfold pixel_of in V0.
      replace ((64 * tx + i) / 64) with tx in V0 by (apply Z.div_unique with i; lia).
      replace ((64 * ty + j) / 64) with ty in V0 by (apply Z.div_unique with j; lia).
      replace ((64 * tx + i) mod 64) with i in V0 by (apply Z.mod_unique with tx; lia).
      replace ((64 * ty + j) mod 64) with j in V0 by (apply Z.mod_unique with ty; lia). exact V0. }
    pose proof (srun_keeps trig mix G P Q step evs ts0 [] ts rs R K0) as K.
    destruct K as [_ KP _].
    - intros d Id o tiles t Po ET It. destruct (A d Id) as (Rd & Od). exists d, tiles. auto.
    - destruct (KP (X / 64, Y / 64)) as (_ & KV). apply KV; [pose proof (Z.mod_pos_bound X 64)|pose proof (Z.mod_pos_bound Y 64)]; lia.
  Qed.

  (** *** C07 *)
  Lemma locked_modes : forall d o, alpha_locked d -> prepare_op d = Ok (Some o) ->
    forall b f m p p', In b (modes mix o) -> b = Ok f -> f m p = Ok p' -> pa p' = pa p.
  Proof.
    intros d o (Fl & Fc & Fp & One) P b f m p p' I E H.
    destruct (prepare_blend d o P) as (_ & _ & _ & El & Ek & Et & _ & Em).
    pose proof (unit_clamp _ Fl) as Ul. pose proof (unit_clamp _ Fc) as Uc. pose proof (unit_clamp _ Fp) as Up.
    pose proof (unit_compl _ Ul) as Ul'. pose proof (unit_compl _ Uc) as Uc'. pose proof (unit_compl _ Up) as Up'.
    assert (truthy (o_normal o) = false) as N.
    { apply truthy_zero.
      - rewrite Em. apply unit_mul; auto using unit_mul, unit_f1.
      - rewrite Em. destruct One as [One|[One|One]]; change value with (@b2r 24 128) in One.
        + apply mul_zero_l; auto using unit_mul, unit_f1. apply mul_zero_l; auto using unit_mul, unit_f1.
          apply mul_zero_r; auto using unit_f1. apply compl_one; auto. apply clamp_high; auto.
        + apply mul_zero_l; auto using unit_mul, unit_f1. apply mul_zero_r; auto using unit_mul, unit_f1.
          apply compl_one; auto. apply clamp_high; auto.
        + apply mul_zero_r; auto using unit_mul, unit_f1. apply compl_one; auto. apply clamp_high; auto. }
    unfold modes in I. rewrite N in I. rewrite !app_nil_l in I.
    repeat (apply in_app_or in I; destruct I as [I|I]).
    - destruct (flt (o_paint o) f1); [|destruct I]. destruct (_ && _); [|destruct I]. destruct I as [<-|[]].
      inv_bind E. injection E as <-. unfold blend_lock_alpha in H. injection H as <-. reflexivity.
    - destruct (flt f0 (o_paint o)); [|destruct I]. destruct (_ && _); [|destruct I]. destruct I as [<-|[]].
      inv_bind E. injection E as <-. unfold blend_lock_alpha_paint in H.
      destruct (pa p <=? 0); [unfold blend_lock_alpha in H; injection H as <-; reflexivity|].
      destruct (mix _ _ _ _ _) as ((x, y), z). inv_bind H. inv_bind H. inv_bind H. injection H as <-. reflexivity.
    - destruct (truthy (o_colorize o)); [|destruct I]. destruct I as [<-|[]]. inv_bind E. injection E as <-.
      unfold blend_color in H. inv_bind H. inv_bind H. injection H as <-. reflexivity.
    - destruct (truthy (o_poster o)); [|destruct I]. destruct I as [<-|[]]. inv_bind E. injection E as <-.
      unfold blend_posterize in H. inv_bind H. inv_bind H. inv_bind H. injection H as <-. reflexivity.
  Qed.

  (** the dabs drawn are those of the history, moved *)
  Lemma placed_from : forall evs ts d, In d (placed ts evs) ->
    exists d0, In (SDab d0) evs /\ (d = d0 \/ exists x y a, d = moved d0 x y a).
  Proof.
    induction evs as [|e evs IH]; intros ts d I; cbn [HistoryProofs.placed] in I; [destruct I|].
    apply in_app_or in I. destruct I as [I|I].
    - destruct e as [| |d0| |]; try destruct I. exists d0. split; [left; reflexivity|].
      + left. auto.
      + exists d0. split; [left; reflexivity|]. unfold copies_of in H. destruct (prepare_op d0) as [[o|]| |]; try contradiction.
        destruct (symmetry_pass _ _ _ _ _ _) as [[l n]| |]; try contradiction.
        apply in_map_iff in H. destruct H as (x & <- & _). right. eauto.
    - destruct (sstep _ _ _ _ _) as [[ts1 r]| |]; try contradiction. destruct (IH ts1 d I) as (d0 & A & B).
      exists d0. split; [right; exact A|exact B].
  Qed.

  (** If every dab of the history uses one of lock-alpha, colorize and posterize
      at full strength, the opacity of no pixel ever changes: any positions,
      shapes, colours, paint modes (even infinities and NaN there), symmetry,
      order of reads and flushes, refused tiles, and any pixel values. *)
  Theorem C07_surface_alpha_unchanged : forall ok junk pix0 ts0 evs ts rs,
    tiled_surface_init G ok junk pix0 = Ok ts0 -> canvas pix0 ->
    srun ts0 evs = Ok (ts, rs) ->
    (forall d, In (SDab d) evs -> alpha_locked d) ->
    forall X Y, pa (pixel_of (sf_pix (ts_sf ts)) X Y) = pa (pixel_of pix0 X Y).
  Proof.
    intros ok junk pix0 ts0 evs ts rs I0 C0 R A X Y.
    unfold tiled_surface_init in I0. inv_bind I0. injection I0 as <-.
    set (ts0 := mkTS _ _ _ _ _) in *.
    set (P := fun (t : tile) mem => tile_ok mem /\ forall i j, 0 <= i <= 63 -> 0 <= j <= 63 -> pa (pixel_at mem i j) = pa (pixel_at (pix0 t) i j)).
    set (Q := fun (t : tile) (o : op) => exists d, alpha_locked d /\ prepare_op d = Ok (Some o)).
    assert (step : forall t o mem mem', Q t o -> P t mem -> process_op trig mix t o mem = Ok mem' -> P t mem').
    { intros t o mem mem' (d & Ld & Pd) (L & Al) H.
      destruct (process_op_px trig mix t o mem mem' L H) as (L' & V & x0 & y0 & x1 & y1 & B & Z & Vals & Px). cbv zeta in *.
      split; [exact L'|]. intros i j Hi Hj. rewrite <- (Al i j Hi Hj).
      eapply (blend_all_keeps (fun q => pa q = pa (pixel_at mem i j))); [|reflexivity|apply Px; auto].
      intros b f q q' I Eb Eq Ef. rewrite <- Eq. eapply locked_modes; eauto. }
    assert (keeps op (list Z) P Q (ts_sf ts0)) as K0.
    { apply fresh_keeps. intros t. split; [apply C0|]. reflexivity. }
    pose proof (srun_keeps trig mix G P Q step evs ts0 [] ts rs R K0) as K.
    destruct K as [_ KP _].
    - intros d Id o tiles t Po ET It. exists d. split; [|exact Po].
      destruct (placed_from _ _ _ Id) as (d0 & I0 & [->|(x & y & a & ->)]); [apply A; exact I0|]. apply (A d0 I0).
    - destruct (KP (X / 64, Y / 64)) as (_ & KV). apply KV; [pose proof (Z.mod_pos_bound X 64)|pose proof (Z.mod_pos_bound Y 64)]; lia.
  Qed.
End Ops.

(** ** A case *)
(** two normal dabs, then a lock-alpha dab over them: ordinary, and the last
    changes colours only *)
Definition locked_dab (x y radius : f32) : dab :=
  mkDab x y radius f0 f1 f0 f1 f1 f0 f1 f1 f0 f1 f0 f0 f0 f0.
Definition px_after (evs : list sev) (X Y : Z) : option pixel :=
  match tiled_surface_init no_turn true 0 blank with
  | Ok ts => match srun flat no_mix no_turn ts (evs ++ [finish]) with
             | Ok (ts, _) => Some (pixel_of (sf_pix (ts_sf ts)) X Y) | _ => None end
  | _ => None
  end.
Example C06_surface_case :
  let evs := two_dabs ++ [SDab (locked_dab (f_of_Z 66) (f_of_Z 4) (f_of_Z 2))] in
  px_after two_dabs 66 4 = Some (mkPx 18642 18642 18642 18642) /\
  px_after evs 66 4 = Some (mkPx 0 18642 0 18642) /\ px_after evs 61 4 = Some (mkPx 0 0 0 0).
Proof. split; [exact eq_refl|]. split; exact eq_refl. Qed.
Example C06_surface_hypotheses : forall x y r, Z.abs x <= 1048576 -> Z.abs y <= 1048576 -> 1 <= r <= 65536 ->
  let d := round_dab (f_of_Z x) (f_of_Z y) (f_of_Z r) f1 in
  regular flat d /\ ordinary_dab d /\
  ordinary_dab (locked_dab (f_of_Z x) (f_of_Z y) (f_of_Z r)) /\ alpha_locked (locked_dab (f_of_Z x) (f_of_Z y) (f_of_Z r)).
Proof.
  intros x y r Hx Hy Hr. split; [apply (C05_fine_case x y r (0, 0) Hx Hy Hr)|].
  destruct f1_val as (V1 & F1). destruct f0_val as (V0 & F0).
  unfold ordinary_dab, plain_numbers, alpha_locked. cbn [round_dab locked_dab d_r d_g d_b d_opaque d_alpha d_lock d_colorize d_poster d_paint].
  change value with (@b2r 24 128). rewrite V0, V1. repeat split; try assumption; try lra.
Qed.

Print Assumptions C06_surface_stays_valid.
Print Assumptions C07_surface_alpha_unchanged.
