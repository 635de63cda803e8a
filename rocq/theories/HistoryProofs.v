(** Histories of a surface (Dab.v) as histories of the plumbing (Plumb.v), and
    pixel by pixel. *)
From Verif Require Import Base F32 F32Proofs Queue QueueProofs Blend Mask MaskProofs OpaProofs RrProofs
  MaskFloatProofs FarProofs Rect Arith Symmetry Plumb PlumbProofs P_Plumb Dab DabProofs.
From Coq Require Import Reals Lra.
From Flocq Require Import Core.Core IEEE754.BinarySingleNaN.
From Verif Require Import P_Mask.
Local Open Scope Z_scope.

Ltac inv_bind H := apply obind_ok in H; let a := fresh "v" in let E := fresh "E" in destruct H as (a & E & H).

Lemma tile_equal_refl : forall t, tile_equal t t = true.
Proof. intros. apply tile_equal_spec. reflexivity. Qed.
Lemma tile_equal_neq : forall t t', t <> t' -> tile_equal t t' = false.
Proof. intros t t' N. destruct (tile_equal t t') eqn:E; auto. apply tile_equal_spec in E. contradiction. Qed.

Section History.
  Variables (trig : trig_oracle) (mix : mix_oracle) (G : trigops num32).
  Notation ev_step := (ev_step op (list Z) (op_steps trig mix)).
  Notation sstep := (sstep trig mix G).
  Notation srun := (srun trig mix G).

  Notation sacc := (fun (a : tsurf * list sres) (e : sev) => let* (ts, r) := sstep (fst a) e in Ok (ts, snd a ++ [r])).

  (** the copies of an accepted dab made by the symmetry in force *)
  Definition copies_of (ts : tsurf) (d : dab) : list dab :=
    match prepare_op d with
    | Ok (Some _) =>
        match symmetry_pass G (ts_sym ts) (ts_num ts) (d_x d) (d_y d) (d_angle d) with
        | Ok (l, _) => map (fun e : @extra num32 => moved d (e_x e) (e_y e) (e_angle e)) l
        | _ => []
        end
    | _ => []
    end.
  (** all dabs drawn by a history, with their copies, in drawing order *)
  Fixpoint placed (ts : tsurf) (evs : list sev) : list dab :=
    match evs with
    | [] => []
    | e :: evs =>
        (match e with SDab d => d :: copies_of ts d | _ => [] end) ++
        (match sstep ts e with Ok (ts, _) => placed ts evs | _ => [] end)
    end.

  Definition ev_of_dab (d : dab) : list (ev op) :=
    match prepare_op d with
    | Ok (Some o) => match op_tiles o with Ok ts => [Draw o ts] | _ => [] end
    | _ => []
    end.
  Definition ev_of (ts : tsurf) (e : sev) : list (ev op) :=
    match e with
    | SDab d => flat_map ev_of_dab (d :: copies_of ts d)
    | SRead canw canr rows => [Read canw canr rows]
    | SEnd can _ => [End can]
    | _ => []
    end.
  Fixpoint hist (ts : tsurf) (evs : list sev) : list (ev op) :=
    match evs with
    | [] => []
    | e :: evs => ev_of ts e ++ (match sstep ts e with Ok (ts, _) => hist ts evs | _ => [] end)
    end.

  Lemma prepare_fields : forall d o, prepare_op d = Ok (Some o) ->
    o_x o = d_x d /\ o_y o = d_y d /\ o_radius o = d_radius d /\ o_angle o = d_angle d /\
    o_hard o = clamp01 (d_hard d) /\ o_soft o = clamp01 (d_soft d) /\
    o_aspect o = (if flt (d_aspect d) f1 then f1 else d_aspect d) /\
    flt (d_radius d) (flit 1 10) = false /\ feq (clamp01 (d_hard d)) f0 = false /\ feq (clamp01 (d_soft d)) f1 = false.
  Proof.
    intros d o H. unfold prepare_op in H. inv_bind H.
    destruct (flt (d_radius d) (flit 1 10)) eqn:E1; [discriminate|].
    destruct (feq (clamp01 (d_hard d)) f0) eqn:E2; [discriminate|].
    destruct (feq (clamp01 (d_soft d)) f1) eqn:E3; [discriminate|].
    destruct (feq (clamp01 (d_opaque d)) f0) eqn:E4; [discriminate|]. cbn [orb] in H.
    inv_bind H. inv_bind H. inv_bind H. injection H as <-. cbn. repeat split; auto.
  Qed.

  (** draw_dab_internal *)
  Lemma internal_spec : forall ts d idx ts' m, draw_dab_internal ts d idx = Ok (ts', m) ->
    ts_num ts' = ts_num ts /\ ts_dirtied ts' = ts_dirtied ts /\ ts_sym ts' = ts_sym ts /\
    ((m = false /\ prepare_op d = Ok None /\ ts' = ts /\ ev_of_dab d = []) \/
     (m = true /\ exists o tiles, prepare_op d = Ok (Some o) /\ op_tiles o = Ok tiles /\ ev_of_dab d = [Draw o tiles] /\
        enqueue op (list Z) (ts_sf ts) o tiles = Ok (ts_sf ts') /\
        exists r r', at_index (ts_boxes ts) idx = Ok r /\ update_dirty_bbox r (o_x o) (o_y o) (o_radius o) = Ok r' /\
          ts_boxes ts' = upd (ts_boxes ts) (Z.to_nat idx) r')).
  Proof.
    intros ts d idx ts' m H. unfold draw_dab_internal in H. inv_bind H. destruct v as [o|].
    - inv_bind H. inv_bind H. inv_bind H. inv_bind H. injection H as <- <-. cbn [ts_num ts_dirtied ts_sym ts_sf ts_boxes].
      repeat split; auto. right. split; auto. exists o, v.
      assert (op_tiles o = Ok v) as ET.
      { destruct (prepare_fields d o E) as (X1 & X2 & X3 & _). unfold op_tiles. rewrite X1, X2, X3. exact E0. }
      split; auto. split; auto. split; [unfold ev_of_dab; rewrite E, ET; reflexivity|].
      split; auto. exists v1, v2. auto.
    - injection H as <- <-. repeat split; auto. left. unfold ev_of_dab. rewrite E. auto.
  Qed.

  Lemma step_out : forall evs (s : surf op (list Z)) out s' out',
    ofold ev_step evs (s, out) = Ok (s', out') -> forall out2, exists out2', ofold ev_step evs (s, out2) = Ok (s', out2').
  Proof.
    induction evs as [|e evs IH]; intros s out s' out' H out2; cbn [ofold] in *.
    - injection H as <- <-. eauto.
    - inv_bind H. destruct v as (s1, o1). destruct e; cbn [Plumb.ev_step] in *; inv_bind E.
      + injection E as <- <-. cbn [Plumb.ev_step]. rewrite E0. cbn [obind]. eapply IH; eauto.
      + destruct v as (s2, seen). injection E as <- <-. cbn [Plumb.ev_step]. rewrite E0. cbn [obind]. eapply IH; eauto.
      + injection E as <- <-. cbn [Plumb.ev_step]. rewrite E0. cbn [obind]. eapply IH; eauto.
  Qed.

  Lemma internal_hist : forall ts d idx ts' m out, draw_dab_internal ts d idx = Ok (ts', m) ->
    exists out', ofold ev_step (ev_of_dab d) (ts_sf ts, out) = Ok (ts_sf ts', out').
  Proof.
    intros ts d idx ts' m out H. destruct (internal_spec _ _ _ _ _ H) as (_ & _ & _ & [(_ & _ & -> & ->)|(_ & o & tiles & _ & _ & -> & E & _)]).
    - exists out. reflexivity.
    - cbn [ofold Plumb.ev_step]. rewrite E. cbn [obind]. eauto.
  Qed.

  (** draw_dab: what it leaves in the other fields *)
  Lemma extras_hist : forall d l ts ts' out,
    ofold (fun ts (e : @extra num32) =>
             let* r := draw_dab_internal ts (moved d (e_x e) (e_y e) (e_angle e)) (e_box e) in Ok (fst r)) l ts = Ok ts' ->
    ts_num ts' = ts_num ts /\ ts_sym ts' = ts_sym ts /\
    exists out', ofold ev_step (flat_map ev_of_dab (map (fun e : @extra num32 => moved d (e_x e) (e_y e) (e_angle e)) l)) (ts_sf ts, out) = Ok (ts_sf ts', out').
  Proof.
    intros d. induction l as [|e l IH]; intros ts ts' out H; cbn [ofold] in H.
    - injection H as <-. cbn. eauto.
    - inv_bind H. inv_bind E. destruct v0 as (ts1, m). cbn [fst] in E. injection E as <-.
      destruct (internal_spec _ _ _ _ _ E0) as (N & _ & S & _).
      destruct (internal_hist _ _ _ _ _ out E0) as (o1 & H1).
      destruct (IH _ _ o1 H) as (N' & S' & o2 & H2). split; [congruence|]. split; [congruence|].
      exists o2. cbn [map flat_map]. rewrite ofold_app, H1. cbn [obind]. exact H2.
  Qed.

  Lemma draw_hist : forall ts d ts' m out, draw_dab G ts d = Ok (ts', m) ->
    ts_num ts' = ts_num ts /\ ts_sym ts' = ts_sym ts /\
    exists out', ofold ev_step (flat_map ev_of_dab (d :: copies_of ts d)) (ts_sf ts, out) = Ok (ts_sf ts', out').
  Proof.
    intros ts d ts' m out H. unfold draw_dab in H. inv_bind H. destruct v as (ts1, modified).
    destruct (internal_spec _ _ _ _ _ E) as (N1 & _ & S1 & C).
    destruct (internal_hist _ _ _ _ _ out E) as (o1 & H1).
    cbn [flat_map]. unfold copies_of.
    destruct C as [(-> & P & -> & _)|(-> & o & tiles & P & _)].
    - injection H as <- <-. rewrite P. cbn. split; [auto|]. split; [auto|]. rewrite app_nil_r. eauto.
    - rewrite P. inv_bind H. destruct v as (extras, used). inv_bind H. injection H as <- <-.
      rewrite N1, S1 in E0. rewrite E0.
      destruct (extras_hist d _ _ _ o1 E1) as (N2 & S2 & o2 & H2). cbn [ts_num ts_sym ts_sf set_dirtied].
      split; [congruence|]. split; [congruence|]. exists o2. rewrite ofold_app, H1. cbn [obind]. exact H2.
  Qed.

  Lemma sstep_hist : forall ts e ts' r out, sstep ts e = Ok (ts', r) ->
    exists out', ofold ev_step (ev_of ts e) (ts_sf ts, out) = Ok (ts_sf ts', out').
  Proof.
    intros ts e ts' r out H. destruct e; cbn [Dab.sstep ev_of] in *.
    - injection H as <- <-. cbn. eauto.
    - inv_bind H. injection H as <- <-. unfold begin_atomic in E. inv_bind E. unfold prepare_bounding_boxes in E.
      inv_bind E. inv_bind E. destruct v2 as ((boxes, n), dd). inv_bind E. injection E as <-. cbn. eauto.
    - inv_bind H. destruct v as (ts1, m). injection H as <- <-. destruct (draw_hist _ _ _ _ out E) as (_ & _ & K). exact K.
    - inv_bind H. destruct v as (sf, seen). injection H as <- <-. cbn [ofold Plumb.ev_step ts_sf]. rewrite E. cbn [obind]. eauto.
    - inv_bind H. destruct v as (ts1, rr). injection H as <- <-. unfold end_atomic in E. inv_bind E.
      destruct roi as [(rects, cap)|].
      + inv_bind E. injection E as <- <-. cbn [ofold Plumb.ev_step ts_sf]. rewrite E0. cbn [obind]. eauto.
      + injection E as <- <-. cbn [ofold Plumb.ev_step ts_sf]. rewrite E0. cbn [obind]. eauto.
  Qed.

  Lemma srun_cons : forall evs e ts rs ts' rs', ofold sacc (e :: evs) (ts, rs) = Ok (ts', rs') ->
    exists ts1 r, sstep ts e = Ok (ts1, r) /\
      ofold sacc evs (ts1, rs ++ [r]) = Ok (ts', rs').
  Proof.
    intros evs e ts rs ts' rs' H. cbn [ofold] in H. inv_bind H. cbn [fst snd] in E. inv_bind E. destruct v0 as (ts1, r).
    injection E as <-. eauto.
  Qed.

  Lemma srun_hist_gen : forall evs ts rs ts' rs' out,
    ofold sacc evs (ts, rs) = Ok (ts', rs') ->
    exists out', ofold ev_step (hist ts evs) (ts_sf ts, out) = Ok (ts_sf ts', out').
  Proof.
    induction evs as [|e evs IH]; intros ts rs ts' rs' out H.
    - cbn in *. injection H as <- <-. eauto.
    - apply srun_cons in H. destruct H as (ts1 & r & E & H). cbn [hist]. rewrite E.
      destruct (sstep_hist _ _ _ _ out E) as (o1 & H1). destruct (IH _ _ _ _ o1 H) as (o2 & H2).
      exists o2. rewrite ofold_app, H1. exact H2.
  Qed.

  Lemma srun_hist : forall evs ts ts' rs, srun ts evs = Ok (ts', rs) ->
    exists out, Plumb.run op (list Z) (op_steps trig mix) (ts_sf ts) (hist ts evs) = Ok (ts_sf ts', out).
  Proof. intros evs ts ts' rs H. eapply srun_hist_gen. exact H. Qed.

  Lemma srun_app : forall a b ts ts' rs, srun ts (a ++ b) = Ok (ts', rs) ->
    exists ts1 rs1, srun ts a = Ok (ts1, rs1) /\
      ofold sacc b (ts1, rs1) = Ok (ts', rs).
  Proof. intros a b ts ts' rs H. unfold Dab.srun in *. rewrite ofold_app in H. inv_bind H. destruct v as (ts1, rs1). eauto. Qed.

  Lemma hist_app : forall a b ts ts1 rs1, srun ts a = Ok (ts1, rs1) -> hist ts (a ++ b) = hist ts a ++ hist ts1 b.
  Proof.
    assert (forall a b ts rs ts1 rs1, ofold sacc a (ts, rs) = Ok (ts1, rs1) -> hist ts (a ++ b) = hist ts a ++ hist ts1 b) as K.
    { induction a as [|e a IH]; intros b ts rs ts1 rs1 H.
      - cbn in *. injection H as <- <-. reflexivity.
      - apply srun_cons in H. destruct H as (ts2 & r & E & H). cbn [app hist]. rewrite E, (IH _ _ _ _ _ H), app_assoc. reflexivity. }
    intros a b ts ts1 rs1 H. eapply K. exact H.
  Qed.
  Lemma placed_app : forall a b ts ts1 rs1, srun ts a = Ok (ts1, rs1) -> placed ts (a ++ b) = placed ts a ++ placed ts1 b.
  Proof.
    assert (forall a b ts rs ts1 rs1, ofold sacc a (ts, rs) = Ok (ts1, rs1) -> placed ts (a ++ b) = placed ts a ++ placed ts1 b) as K.
    { induction a as [|e a IH]; intros b ts rs ts1 rs1 H.
      - cbn in *. injection H as <- <-. reflexivity.
      - apply srun_cons in H. destruct H as (ts2 & r & E & H). cbn [app placed]. rewrite E, (IH _ _ _ _ _ H), app_assoc. reflexivity. }
    intros a b ts ts1 rs1 H. eapply K. exact H.
  Qed.

  (** the operations of a tile *)
  Notation drawn := (drawn op).
  Lemma drawn_app : forall t a b, drawn t (a ++ b) = drawn t a ++ drawn t b.
  Proof. intros. unfold PlumbProofs.drawn. apply flat_map_app. Qed.

  Lemma drawn_flat : forall t ds, drawn t (flat_map ev_of_dab ds) = flat_map (fun d => drawn t (ev_of_dab d)) ds.
  Proof. intros t ds. induction ds as [|d ds IH]; simpl; auto. rewrite drawn_app, IH. reflexivity. Qed.

  Lemma drawn_hist : forall t evs ts, drawn t (hist ts evs) = flat_map (fun d => drawn t (ev_of_dab d)) (placed ts evs).
  Proof.
    intros t. induction evs as [|e evs IH]; intros ts; [reflexivity|]. cbn [hist placed].
    rewrite drawn_app, flat_map_app. f_equal.
    - destruct e; cbn [ev_of]; try reflexivity. rewrite drawn_flat. reflexivity.
    - destruct (sstep ts e) as [[ts1 r]| |]; auto.
  Qed.

  Lemma drawn_one : forall t d, drawn t (ev_of_dab d) =
    match prepare_op d with
    | Ok (Some o) => match op_tiles o with Ok tiles => if in_dec tile_eq_dec t tiles then [o] else [] | _ => [] end
    | _ => []
    end.
  Proof.
    intros t d. unfold ev_of_dab. destruct (prepare_op d) as [[o|]| |]; auto.
    destruct (op_tiles o) as [tiles| |] eqn:E; auto. unfold PlumbProofs.drawn. cbn [flat_map]. rewrite app_nil_r.
    unfold copies. apply dab_tiles_nodup in E. induction E as [|t0 tiles NI ND IH].
    - reflexivity.
    - cbn [filter]. destruct (tile_eq_dec t t0) as [->|N].
      + rewrite tile_equal_refl. cbn [map]. assert (map (fun _ : tile => o) (filter (tile_equal t0) tiles) = []) as ->.
        { rewrite IH. destruct (in_dec tile_eq_dec t0 tiles); [contradiction|reflexivity]. }
        destruct (in_dec tile_eq_dec t0 (t0 :: tiles)) as [|X]; auto. exfalso. apply X. left. auto.
      + rewrite tile_equal_neq by exact N. rewrite IH. destruct (in_dec tile_eq_dec t tiles) as [I|I]; destruct (in_dec tile_eq_dec t (t0 :: tiles)) as [J|J]; auto.
        * exfalso. apply J. right. auto.
        * destruct J as [->|J]; congruence.
  Qed.

  (** *** Regular dabs *)
  Record regular (d : dab) : Prop := {
    rg_x : between (-1048576) (d_x d) 1048576;
    rg_y : between (-1048576) (d_y d) 1048576;
    rg_r : finite (d_radius d) /\ (value (d_radius d) <= 65536)%R;
    rg_h : finite (d_hard d) /\ (value (d_hard d) <= 0 \/ Rpower 2 (-126) <= value (d_hard d))%R;
    rg_s : finite (d_soft d);
    rg_a : between (-1048576) (d_aspect d) 1048576;
    rg_t : let (cs, sn) := trig (d_angle d) in
           between (-1) cs 1 /\ between (-1) sn 1 /\
           (Rabs (value cs * value cs + value sn * value sn - 1) <= / 65536)%R }.

  Lemma clamp01_val : forall x : f32, fin x -> fin (clamp01 x) /\
    ((b2r x < 0 /\ b2r (clamp01 x) = 0) \/ (1 < b2r x /\ b2r (clamp01 x) = 1) \/ (0 <= b2r x <= 1 /\ b2r (clamp01 x) = b2r x))%R.
  Proof.
    intros x F. destruct f1_val as (V1 & F1). destruct f0_val as (V0 & F0). unfold clamp01, clampf.
    rewrite !flt_spec by auto. rewrite V1, V0.
    destruct (Rlt_bool_spec 1 (b2r x)) as [H|H]; [split; [exact F1|right; left; split; [exact H|exact V1]]|].
    destruct (Rlt_bool_spec (b2r x) 0) as [K|K]; (split; [assumption|]).
    - left. split; [exact K|exact V0].
    - right. right. split; [split; [exact K|exact H]|reflexivity].
  Qed.

  Lemma tenth_val : (/ 16 <= b2r (flit 1 10) /\ fin (flit 1 10))%R.
  Proof.
    assert (B2SF (flit 1 10) = SpecFloat.S754_finite false 13421773 (-27)) as E by (vm_compute; reflexivity).
    destruct (flit 1 10) as [| | |s m e H]; try discriminate. injection E as -> -> ->.
    split; [|reflexivity]. unfold b2r, B2R, F2R. cbn [Fnum Fexp cond_Zopp].
    change (bpow radix2 (-27)) with (/ 134217728)%R. lra.
  Qed.

  Lemma regular_op : forall d o, regular d -> prepare_op d = Ok (Some o) -> op_ok trig o.
  Proof.
    intros d o [Hx Hy (Fr & Hr) (Fh & Hh) Fs Ha Ht] P.
    destruct (prepare_fields d o P) as (Ex & Ey & Er & Ean & Eh & Es & Ea & C1 & C2 & C3).
    destruct tenth_val as (T1 & T2). destruct f1_val as (V1 & F1). destruct f0_val as (V0 & F0).
    unfold value, finite in *.
    rewrite flt_spec in C1 by auto. destruct (Rlt_bool_spec (b2r (d_radius d)) (b2r (flit 1 10))) as [|Rb]; [discriminate|].
    split; [|rewrite Er; exact Hr]. constructor.
    - rewrite Ex. apply between_bd. auto.
    - rewrite Ey. apply between_bd. auto.
    - rewrite Er. split; [auto|]. change B2R with (@b2r 24 128) in Hr. lra.
    - rewrite Eh. destruct (clamp01_val (d_hard d) Fh) as (Fc & C). split; [exact Fc|]. rewrite rpow126 in Hh.
      assert (bpow radix2 (-126) <= 1)%R as L1 by (apply (bpow_le radix2 (-126) 0); lia).
      pose proof (bpow_gt_0 radix2 (-126)) as L0.
      assert (b2r (clamp01 (d_hard d)) <> 0)%R as N.
      { rewrite feq_spec in C2 by auto. rewrite V0 in C2. destruct (Req_bool_spec (b2r (clamp01 (d_hard d))) 0); [discriminate|auto]. }
      destruct C as [(C & D)|[(C & D)|(C & D)]]; rewrite D in *; [contradiction|lra|].
      destruct Hh as [Hh|Hh]; [|exact Hh]. exfalso. apply N. unfold b2r in *. lra.
    - rewrite Es. destruct (clamp01_val (d_soft d) Fs) as (Fc & C). split; [exact Fc|].
      destruct C as [(C & D)|[(C & D)|(C & D)]]; rewrite D; lra.
    - rewrite Ea. fold (fix_aspect (d_aspect d)). apply fix_aspect_ok. apply between_bd. auto.
    - rewrite Ean. destruct (trig (d_angle d)) as (cs, sn). destruct Ht as (A & B & C). split; [|split]; auto using between_bd0.
  Qed.

  (** the effect of a dab on pixel (X, Y) of the plane *)
  Definition paint (d : dab) (X Y : Z) (p : pixel) : outcome pixel :=
    let* o := prepare_op d in
    match o with
    | None => Ok p
    | Some o => paint_op trig mix o X Y p
    end.

  (** pixel (X, Y) of the surface *)
  Definition pixel_of (pix : tile -> list Z) (X Y : Z) : pixel := pixel_at (pix (X / 64, Y / 64)) (X mod 64) (Y mod 64).

  (** computing the position relative to tile [t] does not round *)
  Definition exact_in (t : tile) (d : dab) : Prop :=
    value (fsub (d_x d) (f_of_Z (64 * fst t))) = (value (d_x d) - IZR (64 * fst t))%R /\
    value (fsub (d_y d) (f_of_Z (64 * snd t))) = (value (d_y d) - IZR (64 * snd t))%R.
  (** needed only if the dab can reach the tile at all *)
  Definition reaches (d : dab) (t : tile) : Prop :=
    exists tiles, dab_tiles (d_x d) (d_y d) (d_radius d) = Ok tiles /\ In t tiles.

  Lemma fold_px : forall X Y ds mem mem',
    Z.abs X <= 2097152 -> Z.abs Y <= 2097152 ->
    (forall d, In d ds -> regular d /\ (exists o, prepare_op d = Ok o) /\ (reaches d (X / 64, Y / 64) -> exact_in (X / 64, Y / 64) d)) ->
    tile_ok mem ->
    ofold (apply op (list Z) (op_steps trig mix) (X / 64, Y / 64)) (flat_map (fun d => drawn (X / 64, Y / 64) (ev_of_dab d)) ds) mem = Ok mem' ->
    tile_ok mem' /\
    ofold (fun p d => paint d X Y p) ds (pixel_at mem (X mod 64) (Y mod 64)) = Ok (pixel_at mem' (X mod 64) (Y mod 64)).
  Proof.
    intros X Y ds mem mem' BX BY. set (t := (X / 64, Y / 64)). revert mem. induction ds as [|d ds IH]; intros mem A L H.
    - cbn in *. injection H as ->. auto.
    - cbn [flat_map] in H. rewrite ofold_app in H. inv_bind H. rename v into mem1.
      destruct (A d (or_introl eq_refl)) as (R & (po & P) & EX). cbn [ofold].
      assert (tile_ok mem1 /\ paint d X Y (pixel_at mem (X mod 64) (Y mod 64)) = Ok (pixel_at mem1 (X mod 64) (Y mod 64))) as (L1 & K).
      { rewrite drawn_one in E. unfold paint. rewrite P in *. cbn [obind]. destruct po as [o|].
        2:{ cbn in E. injection E as <-. auto. }
        pose proof (regular_op d o R P) as O. pose proof O as [[Dx Dy (Fr & Hr) _ _ _ _] Hr2].
        destruct (dab_tiles_ok _ _ _ Dx Dy Fr (conj (proj1 Hr) Hr2)) as (tiles & ET & _). fold (op_tiles o) in ET.
        rewrite ET in E. destruct (in_dec tile_eq_dec t tiles) as [I|I].
        - cbn [ofold] in E. inv_bind E. rewrite op_steps_ok in E0. injection E as <-.
          destruct (prepare_fields d o P) as (Q1 & Q2 & Q3 & _).
          destruct (op_here trig mix o t mem v tiles O ET I) as (L1 & K); auto.
          unfold op_exact. rewrite Q1, Q2. apply EX. exists tiles. split; [|exact I]. rewrite <- Q1, <- Q2, <- Q3. exact ET.
        - cbn in E. injection E as <-. split; auto. eapply op_away; eauto. }
      rewrite K. cbn [obind]. apply IH; auto. intros d' I'. apply A. right. auto.
  Qed.

  Lemma sstep_placed : forall ts d r, sstep ts (SDab d) = Ok r ->
    forall d', In d' (d :: copies_of ts d) -> exists o, prepare_op d' = Ok o.
  Proof.
    intros ts d (ts', r) H d' I. cbn [Dab.sstep] in H. inv_bind H. destruct v as (ts1, m). clear H.
    unfold draw_dab in E. inv_bind E. destruct v as (ts2, md).
    destruct (internal_spec _ _ _ _ _ E0) as (N1 & _ & S1 & C).
    destruct I as [<-|I].
    { destruct C as [(_ & P & _)|(_ & o & tiles & P & _)]; eauto. }
    unfold copies_of in I. destruct C as [(-> & P & _)|(-> & o & tiles & P & _)]; rewrite P in I; [contradiction|].
    inv_bind E. destruct v as (l, used). rewrite N1, S1 in E1. rewrite E1 in I. inv_bind E. clear E E0 N1 S1 E1 P.
    revert v E2 I. generalize ts2. induction l as [|e l IH]; intros ts3 v H I; [contradiction|].
    cbn [ofold] in H. inv_bind H. inv_bind E. destruct v1 as (ts4, m4). cbn [fst] in E. injection E as <-.
    destruct I as [<-|I]; [|eapply IH; eauto].
    destruct (internal_spec _ _ _ _ _ E0) as (_ & _ & _ & [(_ & P & _)|(_ & o' & tiles' & P & _)]); eauto.
  Qed.

  Lemma placed_ok : forall evs ts rs ts' rs',
    ofold sacc evs (ts, rs) = Ok (ts', rs') ->
    forall d, In d (placed ts evs) -> exists o, prepare_op d = Ok o.
  Proof.
    induction evs as [|e evs IH]; intros ts rs ts' rs' H d I; [contradiction|].
    apply srun_cons in H. destruct H as (ts1 & r & E & H). cbn [placed] in I. rewrite E in I. apply in_app_or in I.
    destruct I as [I|I]; [|eapply IH; eauto].
    destruct e; try contradiction. eapply sstep_placed; eauto.
  Qed.

  Definition sgranted (t : tile) (e : sev) : Prop :=
    match e with SRead canw _ _ => canw t = true | SEnd can _ => can t = true | _ => True end.

  Lemma granted_hist : forall t evs ts, (forall e, In e evs -> sgranted t e) -> forall e, In e (hist ts evs) -> granted op t e.
  Proof.
    intros t. induction evs as [|e0 evs IH]; intros ts A e I; [contradiction|]. cbn [hist] in I. apply in_app_or in I.
    destruct I as [I|I].
    - pose proof (A e0 (or_introl eq_refl)) as Ge. destruct e0; cbn [ev_of] in I; try contradiction.
      + apply in_flat_map in I. destruct I as (d' & _ & I). unfold ev_of_dab in I.
        destruct (prepare_op d') as [[o|]| |]; try contradiction. destruct (op_tiles o); try contradiction.
        destruct I as [<-|[]]. exact Logic.I.
      + destruct I as [<-|[]]. exact Ge.
      + destruct I as [<-|[]]. exact Ge.
    - destruct (sstep ts e0) as [[ts1 r]| |]; try contradiction. eapply IH; [|exact I]. intros. apply A. right. auto.
  Qed.
End History.
