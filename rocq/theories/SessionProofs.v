(** Sessions run to completion: dabs, boxes and whole surfaces. *)
From Verif Require Import Base F32 F32Proofs Queue QueueProofs Blend Mask MaskProofs BlendProofs OpaProofs RrProofs
  MaskFloatProofs FarProofs Rect Arith Symmetry Plumb PlumbProofs P_Plumb KeepProofs Dab DabProofs HistoryProofs SurfProofs
  SymmetryProofs PassProofs Paint PaintProofs CompleteProofs.
From Coq Require Import Reals Lra ZifyBool.
From Flocq Require Import Core.Core IEEE754.BinarySingleNaN.
From Verif Require P_SymSafe.
From Verif Require Import P_Mask P_Blend P_Rect RoiProofs DirtyProofs P_Dab P_Surface P_Paint.
Local Open Scope Z_scope.

(** a dab that is carried out without undefined behaviour wherever it falls *)
Record workable (trig : trig_oracle) (d : dab) : Prop := {
  wk_regular : regular trig d;
  wk_painting : painting_dab d;
  wk_radius : (value (d_radius d) <= 1010)%R;
  wk_gap : (value (d_radius d) <= 22 \/
            / 1000000 < Rabs (Rmin (value (d_hard d)) 1 * (1 - Rmax 0 (value (d_soft d))) - / 32768))%R;
  wk_levels : between (-20000000) (d_pnum d) 20000000;
  wk_lock : (value (d_lock d) <= 0 \/ value (d_paint d) <= 0)%R }.

Lemma scale15_total : forall x, unit_f x -> exists k, scale15 x = Ok k.
Proof.
  intros x (Fx & Hx). unfold scale15, f_to_u16.
  destruct (f_of_Z_exact ONE) as (VO & FO); [rewrite ONE_val; lia|].
  assert (0 <= b2r x * b2r (f_of_Z ONE) <= 32768)%R as P.
  { rewrite VO, ONE_val. split; [apply Rmult_le_pos; lra|lra]. }
  destruct (fmul_spec x (f_of_Z ONE) Fx FO) as (E2 & F2).
  { rewrite Rabs_pos_eq by lra. apply Rle_trans with (bpow radix2 15); [simpl; lra|apply bpow_le; lia]. }
  eexists. apply f_to_Z_ok; [exact F2|]. apply Ztrunc_between; try lia; rewrite E2.
  - apply Rlt_le_trans with 0%R; [lra|]. apply rnd32_ge_r; [exact rep32_0|lra].
  - apply Rle_lt_trans with 32768%R; [|lra]. apply rnd32_le_r; [apply (rep32_IZR 32768); lia|lra].
Qed.

Lemma levels_total : forall p, between (-20000000) p 20000000 -> exists k, posterize_levels p = Ok k.
Proof.
  intros p (F & H). unfold value, finite in *. change B2R with (@b2r 24 128) in H. destruct (d_of_f_exact p F) as (Ep & Fp). destruct (d_of_Z_exact 100) as (Eh & Fh); [lia|].
  destruct dhalf_facts as (E2 & F2). unfold posterize_levels, d_to_int.
  assert (rep64 2000000000%R) as R1 by (apply (rep64_IZR 2000000000); lia).
  assert (rep64 (-2000000000)%R) as R2 by (apply (rep64_IZR (-2000000000)); lia).
  assert (rep64 2000000001%R) as R3 by (apply (rep64_IZR 2000000001); lia).
  destruct (dmul_spec _ _ Fp Fh) as (Em & Fm); [apply big1023, big127; rewrite Ep, Eh; apply Rabs_le; lra|].
  rewrite Ep, Eh in Em.
  assert (-2000000000 <= b2r (dmul (d_of_f p) (d_of_Z 100)) <= 2000000000)%R as Bm.
  { rewrite Em. split; [apply rnd64_ge_r|apply rnd64_le_r]; auto; lra. }
  destruct (dadd_spec _ _ Fm F2) as (Ea & Fa); [apply big1023, big127; rewrite E2; apply Rabs_le; lra|].
  rewrite E2 in Ea.
  assert (-2000000000 <= b2r (dadd (dmul (d_of_f p) (d_of_Z 100)) (dlit 1 2)) <= 2000000001)%R as Ba.
  { rewrite Ea. split; [apply rnd64_ge_r|apply rnd64_le_r]; auto; lra. }
  rewrite d_to_Z_ok; [cbn [obind]; eexists; reflexivity|exact Fa|].
  apply Ztrunc_between; unfold INT_MIN, INT_MAX; try lia; lra.
Qed.

Lemma prepare_total : forall trig d, workable trig d -> exists po, prepare_op d = Ok po.
Proof.
  intros trig d [_ ((Fr & Fg & Fb & _) & _) _ _ Hl _]. unfold prepare_op.
  destruct (levels_total _ Hl) as (k & ->). cbn [obind]. destruct (_ || _); [eexists; reflexivity|].
  destruct (scale15_total _ (unit_clamp _ Fr)) as (r & ->). destruct (scale15_total _ (unit_clamp _ Fg)) as (g & ->).
  destruct (scale15_total _ (unit_clamp _ Fb)) as (b & ->). cbn [obind]. eexists. reflexivity.
Qed.

Lemma edge_tile : forall v r, bd v 20 -> fin r -> (/ 16 <= b2r r <= 1010)%R ->
  -16401 <= lo_px v r / 64 /\ hi_px v r / 64 <= 16401 /\ lo_px v r / 64 <= 16401 /\ -16401 <= hi_px v r / 64.
Proof.
  intros v r Bv Fr Hr. assert (/ 16 <= b2r r <= 65536)%R as Hr' by lra. destruct (edge_vals v r Bv Fr Hr') as (_ & _ & E1 & E2).
  destruct Bv as (Fv & Hv). change (bpow radix2 20) with 1048576%R in Hv. apply Rabs_le_inv in Hv, E1, E2.
  pose proof (Zfloor_lb (b2r (fsub v (fadd r f1)))) as A1. pose proof (Zfloor_ub (b2r (fsub v (fadd r f1)))) as A1'. fold (lo_px v r) in A1, A1'.
  pose proof (Zfloor_lb (b2r (fadd v (fadd r f1)))) as A2. pose proof (Zfloor_ub (b2r (fadd v (fadd r f1)))) as A2'. fold (hi_px v r) in A2, A2'.
  assert (-1049600 <= lo_px v r <= 1049600) by (split; apply le_IZR; lra).
  assert (-1049600 <= hi_px v r <= 1049600) by (split; apply le_IZR; lra).
  split; [apply Z.div_le_lower_bound; lia|]. split; [apply Z.div_le_upper_bound; lia|].
  split; [apply Z.div_le_upper_bound; lia|apply Z.div_le_lower_bound; lia].
Qed.

Section Work.
  Variables (trig : trig_oracle) (G : trigops num32).
  Notation modes := (modes paint_mix).
  Notation process_op := (process_op trig paint_mix).

  Lemma workable_tiles : forall d o, workable trig d -> prepare_op d = Ok (Some o) ->
    exists tiles, op_tiles o = Ok tiles /\ dab_tiles (d_x d) (d_y d) (d_radius d) = Ok tiles /\ forall t, In t tiles -> Z.abs (fst t) <= 16401 /\ Z.abs (snd t) <= 16401.
  Proof.
    intros d o [R _ Hr _ _ _] P. pose proof (regular_op trig d o R P) as [[Dx Dy (Fr & Hr0) _ _ _ _] _].
    destruct (prepare_fields d o P) as (E1 & E2 & E3 & _). unfold value in Hr. change B2R with (@b2r 24 128) in Hr. rewrite <- E3 in Hr.
    assert (/ 16 <= b2r (o_radius o) <= 65536)%R as Hr' by lra. assert (/ 16 <= b2r (o_radius o) <= 1010)%R as Hr2 by lra.
    destruct (dab_tiles_ok _ _ _ Dx Dy Fr Hr') as (ts & E & M). exists ts. split; [exact E|]. split; [rewrite <- E1, <- E2, <- E3; exact E|].
    intros t I. apply M in I. pose proof (edge_tile _ _ Dx Fr Hr2). pose proof (edge_tile _ _ Dy Fr Hr2). lia.
  Qed.

  Lemma mask_total : forall d o tiles t, workable trig d -> prepare_op d = Ok (Some o) -> op_tiles o = Ok tiles -> In t tiles ->
    exists mask, op_mask trig t o = Ok mask.
  Proof.
    intros d o tiles t Wk P ET It. pose proof Wk as [R _ Hr Hg _ _]. pose proof (regular_op trig d o R P) as [D Rr].
    destruct (workable_tiles d o Wk P) as (tiles' & ET' & _ & Bt). rewrite ET in ET'. injection ET' as <-. specialize (Bt t It).
    pose proof D as [Dx Dy (Fr & Hr0) (Fh & Dh) (Fs & Ds) Da Dt].
    destruct (prepare_fields d o P) as (E1 & E2 & E3 & E4 & E5 & E6 & E7 & C1 & C2 & C3).
    assert (Hr' : (/ 16 <= b2r (o_radius o) <= 65536)%R) by lra.
    destruct (dab_tiles_ok _ _ _ Dx Dy Fr Hr') as (ts' & ET' & Mem). unfold op_tiles in ET. rewrite ET' in ET. injection ET as ->.
    apply Mem in It. destruct It as (Itx & Ity).
    destruct (local_far _ _ _ 0 Dx Fr Hr' Itx) as (Bx & _). destruct (local_far _ _ _ 0 Dy Fr Hr' Ity) as (By & _).
    unfold op_mask, TILE. rewrite !int_val_ok by (unfold INT_MIN, INT_MAX; lia). cbn [obind].
    rewrite (Z.mul_comm (fst t)), (Z.mul_comm (snd t)).
    assert (forall x, bd x 20 -> between (-1048576) x 1048576) as K.
    { intros x (F & H). split; [exact F|]. change (bpow radix2 20) with 1048576%R in H. apply Rabs_le_inv in H. exact H. }
    unfold value, finite in *. change B2R with (@b2r 24 128) in *.
    apply C10_fits_engine_partial.
    - constructor; auto.
      + split; [exact Fr|]. unfold value. change B2R with (@b2r 24 128). lra.
      + split; [exact Fh|]. unfold value. change B2R with (@b2r 24 128). rewrite rpow126. exact Dh.
      + split; [exact Fs|exact Ds].
      + rewrite E4. destruct R as [_ _ _ _ _ _ Rt]. exact Rt.
    - rewrite E3. exact Hr.
    - rewrite E3. destruct Hg as [Hg|Hg]; [left; exact Hg|right]. unfold value. change B2R with (@b2r 24 128).
      destruct R as [_ _ _ (Fh0 & _) Fs0 _ _]. unfold finite in *. destruct f1_val as (V1 & F1). destruct f0_val as (V0 & F0).
      rewrite E5, E6. rewrite E5 in Fh, Dh. rewrite E6 in Fs, Ds.
      rewrite feq_spec in C2, C3 by auto. rewrite V0 in C2. rewrite V1 in C3.
      replace (b2r (clamp01 (d_hard d))) with (Rmin (b2r (d_hard d)) 1).
      2:{ destruct (clamp01_val (d_hard d) Fh0) as (_ & [(X & Y)|[(X & Y)|(X & Y)]]); rewrite Y in *.
          - exfalso. rewrite Req_bool_true in C2 by reflexivity. discriminate C2.
          - apply Rmin_right. lra.
          - apply Rmin_left. lra. }
      replace (b2r (clamp01 (d_soft d))) with (Rmax 0 (b2r (d_soft d))).
      2:{ destruct (clamp01_val (d_soft d) Fs0) as (_ & [(X & Y)|[(X & Y)|(X & Y)]]); rewrite Y in *.
          - apply Rmax_left. lra.
          - exfalso. rewrite Req_bool_true in C3 by reflexivity. discriminate C3.
          - apply Rmax_right. lra. }
      rewrite (Rmin_left (Rmin _ 1) 1) by apply Rmin_r. exact Hg.
  Qed.

  Definition sound (f : Z -> pixel -> outcome pixel) : Prop := forall m p, frac m -> valid p -> exists p', f m p = Ok p' /\ valid p'.
  Lemma run_sound : forall k, ordinary_ok k -> sound (run k).
  Proof. intros k Ho m p Hm Vp. destruct (C06_blend_exact_and_valid k m p Ho Hm Vp) as (E & V). rewrite E. eauto. Qed.
  Lemma pigment_sound : forall k, ordinary_ok k -> (forall m p, ~ too_faint k m p) -> sound (run_pigment k).
  Proof. intros k Ho N m p Hm Vp. destruct (C48_pigment_valid_partial k m p Ho Hm Vp (N m p)) as (q & E & V & _). eauto. Qed.

  Lemma modes_total : forall d o, workable trig d -> prepare_op d = Ok (Some o) ->
    forall b, In b (modes o) -> exists f, b = Ok f /\ sound f.
  Proof.
    intros d o [_ ((Fr & Fg & Fb & Fo & Fa & Fl & Fc & Fp & Fn) & Zc & Zp) _ _ _ Lk] P b I.
    destruct (prepare_blend d o P) as ((r & g & bl & Er & Eg & Eb & Ec) & Ea & Eo & El & Ek & Et & En & Em).
    apply scale15_frac in Er; [|apply unit_clamp; exact Fr]. apply scale15_frac in Eg; [|apply unit_clamp; exact Fg].
    apply scale15_frac in Eb; [|apply unit_clamp; exact Fb].
    assert (colour_ok (o_col o)) as C by (rewrite Ec; repeat split; cbn [cr cg cb]; apply Er || apply Eg || apply Eb).
    pose proof (unit_clamp _ Fa) as Ua. pose proof (unit_clamp _ Fo) as Uo. pose proof (unit_clamp _ Fl) as Ul.
    pose proof (unit_clamp _ Fc) as Uc. pose proof (unit_clamp _ Fp) as Up. pose proof (unit_clamp _ Fn) as Un.
    pose proof (unit_compl _ Ul) as Ul'. pose proof (unit_compl _ Uc) as Uc'. pose proof (unit_compl _ Up) as Up'. pose proof (unit_compl _ Un) as Un'.
    assert (unit_f (o_normal o)) as Unm by (rewrite Em; auto using unit_mul, unit_f1).
    assert (forall x, unit_f x -> exists k, scale15 x = Ok k /\ frac k) as S15.
    { intros x U. destruct (scale15_total x U) as (k & E). exists k. split; [exact E|]. eapply scale15_frac; eauto. }
    destruct (S15 (o_alpha o)) as (ka & Eka & Fka); [rewrite Ea; exact Ua|].
    unfold modes in I.
    rewrite (truthy_zero (o_colorize o)) in I by (rewrite Ek; (apply Uc || (apply clamp_low; auto))).
    rewrite (truthy_zero (o_poster o)) in I by (rewrite Et; (apply Up || (apply clamp_low; auto))).
    rewrite !app_nil_r in I. apply in_app_or in I. destruct I as [I|I].
    - destruct (flt (o_paint o) f1); [|destruct I].
      destruct (S15 (fmul (fmul (o_normal o) (o_opaque o)) (fsub f1 (o_paint o)))) as (kn & Ekn & Fkn); [rewrite Eo, En; auto using unit_mul|].
      destruct (S15 (fmul (fmul (fmul (fmul (o_lock o) (o_opaque o)) (fsub f1 (o_colorize o))) (fsub f1 (o_poster o))) (fsub f1 (o_paint o))))
        as (kl & Ekl & Fkl); [rewrite Eo, En, El, Ek, Et; auto using unit_mul|].
      apply in_app_or in I. destruct I as [I|I].
      + destruct (truthy (o_normal o)); [|destruct I]. destruct I as [<-|[]]. destruct (feq (o_alpha o) f1).
        * rewrite Ekn. cbn [obind]. eexists. split; [reflexivity|]. apply (run_sound (Normal (o_col o) kn)). split; auto.
        * rewrite Eka, Ekn. cbn [obind]. eexists. split; [reflexivity|]. apply (run_sound (Eraser (o_col o) ka kn)). split; auto.
      + destruct (_ && _); [|destruct I]. destruct I as [<-|[]]. rewrite Ekl. cbn [obind]. eexists. split; [reflexivity|].
        apply (run_sound (LockAlpha (o_col o) kl)). split; auto.
    - destruct (flt f0 (o_paint o)) eqn:Ep; [|destruct I].
      destruct (S15 (fmul (fmul (o_normal o) (o_opaque o)) (o_paint o))) as (kn & Ekn & Fkn); [rewrite Eo, En; auto using unit_mul|].
      apply in_app_or in I. destruct I as [I|I].
      + destruct (truthy (o_normal o)); [|destruct I]. destruct I as [<-|[]]. destruct (feq (o_alpha o) f1).
        * rewrite Ekn. cbn [obind]. eexists. split; [reflexivity|]. apply (pigment_sound (Normal (o_col o) kn)); [split; auto|]. intros m p [].
        * rewrite Eka, Ekn. cbn [obind]. eexists. split; [reflexivity|]. apply (pigment_sound (Eraser (o_col o) ka kn)); [split; auto|]. intros m p [].
      + destruct Lk as [Lk|Lk].
        * rewrite (truthy_zero (o_lock o)) in I by (rewrite El; (apply Ul || (apply clamp_low; auto))). destruct I.
        * exfalso. destruct f0_val as (V0 & F0). rewrite En, flt_spec in Ep by (try apply Un; auto). rewrite clamp_low in Ep by auto.
          rewrite V0, Rlt_bool_false in Ep by lra. discriminate Ep.
  Qed.

  Lemma process_total_op : forall d o tiles t mem, workable trig d -> prepare_op d = Ok (Some o) -> op_tiles o = Ok tiles -> In t tiles ->
    tile_valid mem -> exists mem', process_op t o mem = Ok mem' /\ tile_valid mem'.
  Proof.
    intros d o tiles t mem Wk P ET It V.
    assert (exists mem', process_op t o mem = Ok mem') as (mem' & E).
    2:{ exists mem'. split; [exact E|]. eapply painting_step; eauto; apply Wk. }
    unfold Dab.process_op. destruct (mask_total d o tiles t Wk P ET It) as (mask & Emk). rewrite Emk. cbn [obind].
    assert (Dk := Emk). unfold op_mask in Dk. apply obind_ok in Dk. destruct Dk as (ox & Eox & Dk). apply obind_ok in Dk. destruct Dk as (oy & Eoy & Dk).
    destruct (C10_stamp_exact _ _ _ _ _ _ _ _ _ Dk) as (_ & _ & W & x0 & y0 & x1 & y1 & B & Z & Vals & St).
    pose proof (wk_regular _ _ Wk) as R. pose proof (regular_op trig d o R P) as [D Rr].
    pose proof D as [Dx Dy (Fr & Hr) Dh Ds Da Dt].
    assert (Hr' : (/ 16 <= b2r (o_radius o) <= 65536)%R) by lra.
    destruct (dab_tiles_ok _ _ _ Dx Dy Fr Hr') as (ts' & ET' & Mem). unfold op_tiles in ET. rewrite ET' in ET. injection ET as ->.
    apply Mem in It. destruct It as (Itx & Ity).
    assert (forall z w, int_val z = Ok w -> w = z) as IV.
    { intros z w. unfold int_val. destruct (Base.in_int z); congruence. }
    apply IV in Eox, Eoy. unfold TILE in *. rewrite (Z.mul_comm (fst t)) in Eox. rewrite (Z.mul_comm (snd t)) in Eoy. subst ox oy.
    assert (forall i j, frac (W i j)) as Fv.
    { intros i j. destruct (Z.eq_dec (W i j) 0) as [->|NV]; [unfold frac, full; lia|]. destruct (Z _ _ NV) as (_ & _ & X & Y).
      pose proof (Vals i j X Y) as E.
      destruct (local_far _ _ _ i Dx Fr Hr' Itx) as (Bx & _). destruct (local_far _ _ _ j Dy Fr Hr' Ity) as (By & _).
      destruct (mask_value_ok trig (fsub (o_x o) (f_of_Z (64 * fst t))) (fsub (o_y o) (f_of_Z (64 * snd t))) (o_radius o) (o_hard o) (o_soft o) (o_aspect o) (o_angle o) i j x0 y0 x1 y1)
        as (v & E2 & Rv); auto; [constructor; auto|]. rewrite E in E2. injection E2 as <-. exact Rv. }
    pose proof (modes_total d o Wk P) as M. clear - M St V Fv. revert mem V. induction (modes o) as [|b ms IH]; intros mem V; [eexists; reflexivity|].
    cbn [ofold]. destruct (M b (or_introl eq_refl)) as (f & -> & Sf). cbn [obind]. destruct V as (L & V).
    destruct (St f [] mem L) as (S1 & S2). rewrite app_nil_r in S1, S2. destruct S2 as (mem1 & E1).
    { intros i j Hi Hj _. destruct (Sf (W i j) (pixel_at mem i j) (Fv i j) (V i j Hi Hj)) as (p & -> & _). eauto. }
    rewrite E1. cbn [obind]. destruct (S1 mem1 E1) as (L1 & P1). apply IH.
    - intros. apply M. right. auto.
    - split; [exact L1|]. intros i j Hi Hj. destruct (P1 i j Hi Hj) as (A1 & A2).
      destruct (Z.eq_dec (W i j) 0) as [E0|N0]; [rewrite A1 by auto; auto|].
      destruct (Sf (W i j) (pixel_at mem i j) (Fv i j) (V i j Hi Hj)) as (p & Ep & Vp). rewrite A2 in Ep by auto. congruence.
  Qed.
End Work.

(** *** Boxes *)
(** untouched or not empty *)
Definition neat (r : rect) : Prop := r = rect0 \/ solid r.
Lemma neat_proper : forall r, neat r -> proper r.
Proof. intros r [-> |S]; [apply rect0_proper|apply solid_proper; auto]. Qed.
Definition all_neat (l : list rect) : Prop := forall i, 0 <= i -> neat (box l i).
Definition all_moderate (l : list rect) : Prop := forall i, 0 <= i -> moderate (box l i).
Lemma rect0_moderate : moderate rect0. Proof. unfold moderate, LIM. cbn. lia. Qed.
Lemma at_index_ok : forall A (l : list A) i, 0 <= i < Z.of_nat (length l) -> exists a, at_index l i = Ok a.
Proof.
  intros A l i H. unfold at_index. destruct (Z.ltb_spec i 0); [lia|].
  destruct (nth_error l (Z.to_nat i)) eqn:E; [eauto|]. apply nth_error_None in E. lia.
Qed.
Lemma at_box : forall l i, 0 <= i < Z.of_nat (length l) -> at_index l i = Ok (box l i).
Proof. intros l i H. destruct (at_index_ok _ l i H) as (a & E). destruct (at_index_inv _ _ _ _ E) as (_ & V). rewrite E. unfold box. rewrite V. reflexivity. Qed.

Lemma clear_total : forall n z l, 0 <= z -> z + Z.of_nat n <= Z.of_nat (length l) ->
  exists l', ofold (fun bs i => let* _ := at_index bs i in Ok (upd bs (Z.to_nat i) rect0)) (zrange z n) l = Ok l' /\
    length l' = length l /\ (all_moderate l -> all_moderate l') /\ (all_neat l -> all_neat l') /\ (forall i, 0 <= i -> z <= i < z + Z.of_nat n -> box l' i = rect0) /\
    (forall i, 0 <= i -> box l i = rect0 -> box l' i = rect0).
Proof.
  induction n as [|n IH]; intros z l Hz Hn.
  - exists l. split; [reflexivity|]. split; [reflexivity|]. split; [auto|]. split; [auto|]. split; [intros; lia|auto].
  - rewrite zrange_cons. cbn [ofold]. rewrite at_box by lia. cbn [obind].
    destruct (IH (z + 1) (upd l (Z.to_nat z) rect0)) as (l' & E & L & M & Nt & Z0 & Z1); [lia|rewrite upd_length; lia|].
    exists l'. split; [exact E|]. rewrite upd_length in L. split; [exact L|]. split; [|split; [|split]].
    + intros A. apply M. intros i Hi. rewrite box_upd by lia. destruct (_ =? _); auto. apply rect0_moderate.
    + intros A. apply Nt. intros i Hi. rewrite box_upd by lia. destruct (_ =? _); auto. left. reflexivity.
    + intros i Hi Hr. destruct (Z.eq_dec i z) as [->|N]; [|apply Z0; lia]. apply Z1; [lia|]. rewrite box_upd by lia. rewrite Z.eqb_refl. reflexivity.
    + intros i Hi B. apply Z1; auto. rewrite box_upd by lia. destruct (_ =? _); auto.
Qed.

Lemma expand_rect_total : forall r b, proper r -> moderate r -> neat b -> moderate b ->
  exists r', expand_rect r b = Ok r' /\ solid r' /\ moderate r'.
Proof.
  intros r b Pr Mr Pb Mb. pose proof Mb as (M1 & M2 & M3 & M4). unfold LIM in *.
  unfold expand_rect. destruct Pb as [-> |Sb].
  { cbn [rx ry rw rh rect0].
    destruct (C13_include_point_is_smallest r 0 0 Pr Mr) as (r1 & -> & S1 & Mo1 & _); [unfold small_point, LIM; lia|]. cbn [obind].
    change (int_val (0 + 0)) with (Ok 0). cbn [obind]. change (int_val (0 - 1)) with (Ok (-1)). cbn [obind].
    destruct (C13_include_point_is_smallest r1 (-1) (-1) (solid_proper _ S1) Mo1) as (r2 & -> & S2 & Mo2 & _); [unfold small_point, LIM; lia|]. eauto. }
  destruct (C13_include_rect_is_smallest r b Pr Mr Sb Mb) as (r' & E & S & M & _). exists r'. unfold expand_rect in E. auto.
Qed.

Lemma write_total : forall boxes n roi cap, all_neat boxes -> all_moderate boxes -> 0 <= n <= Z.of_nat (length boxes) -> n <= 16777216 ->
  1 <= cap <= Z.of_nat (length roi) -> exists r, write_roi boxes n roi cap = Ok r.
Proof.
  intros boxes n roi cap Pb Mb Hn Hn2 Hc. unfold write_roi. set (k := Z.min cap n).
  destruct (clear_total (Z.to_nat k) 0 roi) as (roi1 & -> & L1 & _ & _ & Z1 & _); [lia|lia|]. cbn [obind].
  assert (forall j, 0 <= j < k -> proper (box roi1 j) /\ moderate (box roi1 j)) as A1.
  { intros j Hj. rewrite Z1 by lia. split; [apply rect0_proper|apply rect0_moderate]. }
  assert (Z.of_nat (length roi1) = Z.of_nat (length roi)) as L1' by lia. clear Z1 L1.
  assert (forall c z l, 0 <= z -> z + Z.of_nat c <= n -> Z.of_nat (length l) = Z.of_nat (length roi) ->
    (forall j, 0 <= j < k -> proper (box l j) /\ moderate (box l j)) ->
    exists l', ofold (fun roi i => let* j := roi_index n cap i in let* r := at_index roi j in let* b := at_index boxes i in
                        let* r := expand_rect r b in Ok (upd roi (Z.to_nat j) r)) (zrange z c) l = Ok l') as K.
  { induction c as [|c IH]; intros z l Hz Hzn Ll A; [eexists; reflexivity|]. rewrite zrange_cons. cbn [ofold].
    destruct (roi_index_ok n cap z) as (j & -> & Hj & Hj2 & _); try lia. cbn [obind].
    rewrite !at_box by lia. cbn [obind]. destruct (A j) as (Pj & Mj); [lia|].
    destruct (expand_rect_total _ _ Pj Mj (Pb z Hz) (Mb z Hz)) as (r & -> & S & M). cbn [obind].
    apply IH; [lia|lia|rewrite upd_length; exact Ll|]. intros i Hi. rewrite box_upd by lia.
    destruct (Z.eqb_spec j i); [split; [apply solid_proper; auto|auto]|auto]. }
  destruct (K (Z.to_nat n) 0 roi1) as (roi2 & ->); [lia|lia|lia|exact A1|]. cbn [obind]. eexists. reflexivity.
Qed.

(** *** Drawing *)
Section Draw.
  Variables (trig : trig_oracle) (G : trigops num32).

  Record ready (f : option tile) (ts : tsurf) : Prop := {
    rd_wf : wf (sf_q (ts_sf ts));
    rd_sized : sized (sf_q (ts_sf ts));
    rd_room : room f (sf_q (ts_sf ts));
    rd_neat : all_neat (ts_boxes ts);
    rd_moderate : all_moderate (ts_boxes ts) }.
  Definition avoids (f : option tile) (d : dab) : Prop := match f with None => True | Some t => ~ reaches d t end.

  Lemma bbox_total : forall d o r, regular trig d -> prepare_op d = Ok (Some o) -> proper r -> moderate r ->
    exists r', update_dirty_bbox r (o_x o) (o_y o) (o_radius o) = Ok r' /\ solid r' /\ moderate r'.
  Proof.
    intros d o r Rg EP P M. pose proof (regular_op trig d o Rg EP) as [D R]. pose proof D as [Dx Dy (Fr & Hr) _ _ _ _].
    assert (Hr' : (/ 16 <= b2r (o_radius o) <= 65536)%R) by lra.
    destruct (bbox_axis_ok _ _ Dx Fr Hr') as (Ex & Bx1 & Bx2). destruct (bbox_axis_ok _ _ Dy Fr Hr') as (Ey & By1 & By2).
    unfold update_dirty_bbox. rewrite Ex, Ey. cbn [obind].
    assert (small_point (lo_px (o_x o) (o_radius o)) (lo_px (o_y o) (o_radius o))) as S1 by (unfold small_point, LIM; lia).
    assert (small_point (hi_px (o_x o) (o_radius o)) (hi_px (o_y o) (o_radius o))) as S2 by (unfold small_point, LIM; lia).
    destruct (C13_include_point_is_smallest r _ _ P M S1) as (r1 & -> & So1 & M1 & _). cbn [obind].
    destruct (C13_include_point_is_smallest r1 _ _ (solid_proper _ So1) M1 S2) as (r2 & -> & So2 & M2 & _). eauto.
  Qed.

  Lemma internal_total : forall f ts d idx, ready f ts -> workable trig d -> avoids f d -> 0 <= idx < Z.of_nat (length (ts_boxes ts)) ->
    exists ts' m, draw_dab_internal ts d idx = Ok (ts', m) /\ ready f ts' /\ length (ts_boxes ts') = length (ts_boxes ts).
  Proof.
    intros f ts d idx [W S R Pp Mm] Wk Av Hi. unfold draw_dab_internal.
    destruct (prepare_total trig d Wk) as ([o|] & P); rewrite P; cbn [obind].
    2:{ exists ts, false. split; [reflexivity|]. split; [constructor; auto|auto]. }
    destruct (workable_tiles trig d o Wk P) as (tiles & _ & Et & Bt). rewrite Et. cbn [obind].
    destruct (adds_total op f o tiles (sf_q (ts_sf ts)) W S R) as (q' & Eq & W' & S' & R').
    { intros t I. split; [pose proof (Bt t I); unfold tile_in_reach; lia|]. intros ->. cbn [avoids] in Av. apply Av.
      exists tiles. auto. }
    unfold enqueue. rewrite Eq. cbn [obind]. rewrite at_box by exact Hi. cbn [obind].
    assert (0 <= idx) as Hi0 by lia.
    destruct (bbox_total d o (box (ts_boxes ts) idx) (wk_regular _ _ Wk) P (neat_proper _ (Pp idx Hi0)) (Mm idx Hi0)) as (r' & -> & So & Mo). cbn [obind].
    eexists _, _. split; [reflexivity|]. cbn [ts_boxes ts_sf sf_q]. split; [|apply upd_length]. constructor; cbn [ts_boxes ts_sf sf_q]; auto.
    - intros i H0. rewrite box_upd by auto. destruct (_ =? _); auto. right. auto.
    - intros i H0. rewrite box_upd by auto. destruct (_ =? _); auto.
  Qed.

  Lemma extras_total : forall f d l ts, ready f ts ->
    (forall e : @extra num32, In e l -> workable trig (moved d (e_x e) (e_y e) (e_angle e)) /\ avoids f (moved d (e_x e) (e_y e) (e_angle e)) /\
       0 <= e_box e < Z.of_nat (length (ts_boxes ts))) ->
    exists ts', ofold (fun ts (e : @extra num32) =>
             let* r := draw_dab_internal ts (moved d (e_x e) (e_y e) (e_angle e)) (e_box e) in Ok (fst r)) l ts = Ok ts' /\ ready f ts'.
  Proof.
    intros f d. induction l as [|e l IH]; intros ts Rd A; [exists ts; auto|]. cbn [ofold].
    destruct (A e (or_introl eq_refl)) as (Wk & Av & Hi). destruct (internal_total f ts _ _ Rd Wk Av Hi) as (ts1 & m & -> & R1 & L1). cbn [obind fst].
    apply IH; auto. intros e' I. rewrite L1. apply A. right. auto.
  Qed.

  Lemma draw_total : forall all f ts d, ainv G all ts -> ready f ts ->
    (forall d', In d' (d :: copies_of G ts d) -> workable trig d' /\ avoids f d') ->
    exists ts' m, draw_dab G ts d = Ok (ts', m) /\ ready f ts'.
  Proof.
    intros all f ts d [I _] Rd A. destruct (A d (or_introl eq_refl)) as (Wk & Av).
    pose proof (P_SymSafe.i_cap _ _ _ _ I) as Cap. pose proof (P_SymSafe.i_num _ _ _ _ I) as Num. cbn [P_SymSafe.b_cap P_SymSafe.b_num] in Cap, Num.
    unfold draw_dab. destruct (internal_total f ts d 0 Rd Wk Av) as (ts1 & m & E & R1 & L1); [lia|]. rewrite E. cbn [obind].
    destruct (internal_spec _ _ _ _ _ E) as (N1 & _ & S1 & C). destruct C as [(-> & _)|(-> & o & tiles & P & _)].
    { eexists _, _. split; [reflexivity|]. destruct R1 as [? ? ? ? ?]. constructor; auto. }
    destruct (pass_ok G (ts_sym ts) (ts_num ts) (d_x d : num32) (d_y d) (d_angle d)) as (l & u & Es & U & F); [apply I|eapply sinv_enough; eauto|].
    rewrite N1, S1, Es. cbn [obind].
    assert (forall e, In e l -> 0 <= e_box e < u) as B.
    { clear - F. intros e I. induction F as [|ka e' o l' (_ & _ & B) F IH]; [destruct I|]. destruct I as [<-|I]; auto. }
    destruct (extras_total f d l ts1 R1) as (ts2 & -> & R2).
    { intros e Ie. destruct (A (moved d (e_x e) (e_y e) (e_angle e))) as (Wk' & Av').
      - right. unfold copies_of. rewrite P, Es. apply in_map_iff. exists e. auto.
      - split; [exact Wk'|]. split; [exact Av'|]. specialize (B e Ie). rewrite L1. lia. }
    cbn [obind]. eexists _, _. split; [reflexivity|]. destruct R2 as [? ? ? ? ?]. constructor; auto.
  Qed.

  Lemma begin_total : forall all ts ok1 ok2, (all \/ ~ all) -> (all -> ok2 = true) -> ainv G all ts -> all_neat (ts_boxes ts) -> all_moderate (ts_boxes ts) ->
    exists ts', begin_atomic G ok1 ok2 ts = Ok ts' /\ all_neat (ts_boxes ts') /\ all_moderate (ts_boxes ts').
  Proof.
    intros all ts ok1 ok2 Dec Fa [I _] Nt Md.
    destruct (P_SymSafe.step_ok G all _ _ (P_SymSafe.BeginAtomic ok1 ok2) I Logic.I) as (d' & b' & E1 & I'); auto; [intros; exact Logic.I|].
    cbn [P_SymSafe.step] in E1. inv_bind E1. inv_bind E1. injection E1 as -> ->. unfold begin_atomic. rewrite E. cbn [obind].
    pose proof (P_SymSafe.i_cap _ _ _ _ I) as Cap. pose proof (P_SymSafe.i_num _ _ _ _ I) as Num. cbn [P_SymSafe.b_cap P_SymSafe.b_num] in Cap, Num.
    unfold P_SymSafe.prepare_boxes in E0. inv_bind E0. cbn [P_SymSafe.b_num] in E0.
    unfold prepare_bounding_boxes. cbn [ts_sym ts_num ts_boxes ts_dirtied ts_sf]. rewrite E1. cbn [obind].
    match goal with |- context [if ts_num ts <? ?w then ?a else ?b] => assert (exists bs n dd, (if ts_num ts <? w then a else b) = Ok (bs, n, dd) /\ all_neat bs /\ all_moderate bs /\ Z.min n dd <= Z.of_nat (length bs)) as (bs & n & dd & -> & N1 & M1 & L1) end.
    { destruct (ts_num ts <? _).
      - inv_bind E0. rewrite E2. cbn [obind]. destruct (ok2 && _).
        + eexists _, _, _. split; [reflexivity|]. split; [intros i _; rewrite box_repeat; left; auto|]. split; [intros i _; rewrite box_repeat; apply rect0_moderate|].
          lia.
        + eexists _, _, _. split; [reflexivity|]. split; auto. split; auto. lia.
      - eexists _, _, _. split; [reflexivity|]. split; auto. split; auto. lia. }
    cbn [obind]. destruct (clear_total (Z.to_nat (Z.min n dd)) 0 bs) as (l' & -> & L & M & Nn & _); [lia|lia|]. cbn [obind].
    eexists. split; [reflexivity|]. cbn [ts_boxes]. auto.
  Qed.
End Draw.
