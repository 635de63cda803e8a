(** The surface of a painting program: it draws every dab the brush asks for. *)
From Verif Require Import Base F32 F32Proofs Queue QueueProofs Blend Mask MaskProofs BlendProofs OpaProofs RrProofs
  MaskFloatProofs FarProofs Rect Arith Symmetry Plumb PlumbProofs P_Plumb KeepProofs Dab DabProofs HistoryProofs SurfProofs
  SymmetryProofs PassProofs Paint PaintProofs CompleteProofs.
From Coq Require Import Reals Lra ZifyBool.
From Flocq Require Import Core.Core IEEE754.BinarySingleNaN.
From Verif Require P_SymSafe P_Endless BrushProofs Brush BrushInst Color EaselDab EaselProofs.
From Verif Require Import P_Mask P_Blend P_Rect RoiProofs DirtyProofs P_Dab P_Surface P_Paint SessionProofs P_Complete EaselNum SymReach SymCopies Easel.
Local Open Scope Z_scope.

Lemma drawable_workable : forall trig (d : Brush.dab Color.mix64), trig_ok trig -> EaselProofs.drawable d -> workable trig (handed_on d).
Proof.
  intros trig d T [X Y R Cr Cg Cb Op (Hd & Hd') (Fs & Hs) Gap Al As An Lk Co Po Pn Pa Ei].
  constructor; cbn [handed_on d_x d_y d_radius d_r d_g d_b d_opaque d_hard d_soft d_alpha d_aspect d_angle d_lock d_colorize d_poster d_pnum d_paint].
  - constructor; cbn [handed_on d_x d_y d_radius d_r d_g d_b d_opaque d_hard d_soft d_alpha d_aspect d_angle d_lock d_colorize d_poster d_pnum d_paint].
    + apply (zf_between (-1048576) 1048576). eapply zf_weak; [exact X|lia|lia].
    + apply (zf_between (-1048576) 1048576). eapply zf_weak; [exact Y|lia|lia].
    + destruct R as (F & H). split; [exact F|]. simpl in H. unfold value. change B2R with (@b2r 24 128). lra.
    + split; [apply Hd|]. rewrite rpow126. exact Hd'.
    + exact Fs.
    + apply (zf_between (-1048576) 1048576). eapply zf_weak; [exact As|lia|lia].
    + apply T, An.
  - split; [|split; [apply Co|apply Po]]. split; [apply Cr|]. split; [apply Cg|]. split; [apply Cb|]. split; [apply Op|]. split; [exact Al|]. split; [exact Lk|]. split; [apply Co|]. split; [apply Po|exact Pa].
  - destruct R as (_ & H). simpl in H. unfold value. change B2R with (@b2r 24 128). lra.
  - destruct Gap as [G|[G|G]]; [right|right|left; exact G]; unfold value; change B2R with (@b2r 24 128); destruct Hd as (_ & H); simpl in H;
      change (car (Color.sng Color.mix64)) with f32 in *; set (h := b2r (Brush.dab_hardness d : f32)) in *; set (s := b2r (Brush.dab_softness d : f32)) in *; rewrite (Rmax_right 0 s) by lra; rewrite (Rmin_left h 1) by lra.
    + assert (h * (1 - s) <= 0)%R by nra. rewrite Rabs_left by lra. lra.
    + assert (/ 10000 <= h * (1 - s))%R by nra. rewrite Rabs_pos_eq by lra. lra.
  - apply (zf_between (-20000000) 20000000). eapply zf_weak; [exact Pn|lia|lia].
  - exact Ei.
Qed.

Lemma drawable_inner : forall d : Brush.dab Color.mix64, EaselProofs.drawable d -> inner (handed_on d).
Proof. intros d [X Y _ _ _ _ _ _ _ _ _ _ An _ _ _ _ _ _]. split; [exact X|]. split; [exact Y|]. apply (zf_weak _ _ _ _ _ An); lia. Qed.

(** [all]: every allocation of rectangles succeeds *)
Section Surface.
  Variables (all : Prop) (Dec : all \/ ~ all) (trig : trig_oracle) (G : trigops num32) (T : trig_ok trig) (K : turns_ok G) (ts0 : tsurf).
  Notation srun := (srun trig paint_mix G).
  Notation sstep := (sstep trig paint_mix G).

  (** [holds begun painted picked ts]: [ts] is a state of the surface with a tame
      symmetry; since the last end_atomic something was painted only if [painted],
      a colour picked only if [picked] *)
  Definition holds (begun painted picked : bool) (ts : tsurf) : Prop :=
    exists p rs, srun ts0 p = Ok (ts, rs) /\ P_Complete.inv trig G all ts0 p ts /\ tame ts /\ (begun = true -> existsb is_begin p = true) /\
      forall a b, p = a ++ b -> (forall e, In e b -> is_end e = false) ->
        (picked = false -> forall e, In e b -> is_read e = false) /\ (painted = false -> forall d, ~ In (SDab d) b).

  Lemma snoc_split : forall {A} (p : list A) e a b, p ++ [e] = a ++ b -> b = [] \/ exists b', b = b' ++ [e] /\ p = a ++ b'.
  Proof.
    intros A p e a b H. destruct b as [|y b]; [left; reflexivity|]. right.
    destruct (exists_last (l := y :: b)) as (b' & x & Eb); [discriminate|]. rewrite Eb in *. rewrite app_assoc in H.
    apply app_inj_tail in H. destruct H as (-> & ->). exists b'. auto.
  Qed.

  (** one call on the surface *)
  Lemma holds_step : forall begun painted picked ts e painted' picked', holds begun painted picked ts ->
    calm e -> (all -> boxes_allocated e) -> (~ all -> no_snowflake e) -> (forall d, e = SDab d -> workable trig d /\ inner d) -> arrays_ok begun [e] ->
    (is_end e = false -> (painted' = false -> painted = false /\ forall d, e <> SDab d) /\ (picked' = false -> picked = false /\ is_read e = false) /\
      (painted' = false \/ picked' = false)) ->
    exists ts' r, sstep ts e = Ok (ts', r) /\ holds (begun || is_begin e) painted' picked' ts'.
  Proof.
    intros begun painted picked ts e painted' picked' (p & rs & R & Iv & Ac & Bg & Ch) Cm Fa Sn Wk Ar Md. pose proof (P_Complete.v_array _ _ _ _ _ _ Iv) as Ai.
    assert (forall a b, p ++ [e] = a ++ b -> (forall e, In e b -> is_end e = false) ->
      (picked' = false -> forall e, In e b -> is_read e = false) /\ (painted' = false -> forall d, ~ In (SDab d) b)) as Ch'.
    { intros a b Eq Nb. destruct (snoc_split p e a b Eq) as [->|(b' & -> & Ep)]; [split; [intros _ ? []|intros _ ? []]|].
      assert (is_end e = false) as Ne by (apply Nb, in_or_app; right; left; reflexivity).
      destruct (Ch a b' Ep) as (C1 & C2); [intros e' Ie; apply Nb, in_or_app; auto|]. destruct (Md Ne) as (M1 & M2 & _). split.
      - intros Pk e' Ie. destruct (M2 Pk) as (Pk0 & Re). apply in_app_or in Ie. destruct Ie as [Ie|[<-|[]]]; [exact (C1 Pk0 e' Ie)|exact Re].
      - intros Pt d Id. destruct (M1 Pt) as (Pt0 & De). apply in_app_or in Id. destruct Id as [Id|[Id|[]]]; [exact (C2 Pt0 d Id)|exact (De d Id)]. }
    destruct (P_Complete.step_total trig G all ts0 p ts rs e) as (ts' & r & Es & Iv'); auto.
    - intros d Id. rewrite (placed_one trig G) in Id. destruct e; try destruct Id.
      + subst. apply Wk. reflexivity.
      + destruct (Wk d0 eq_refl) as (W1 & W2). exact (copies_workable trig G T K all ts d0 d Ai Ac W2 W1 H).
    - apply calm_few. exact Cm.
    - cbn [arrays_ok] in *. destruct e; auto. destruct roi as [(rects, cap)|]; [|auto]. destruct Ar as ((B & Cap) & _). split; [|exact Logic.I]. split; [apply Bg; exact B|exact Cap].
    - intros a b tsa rsa Eq Ra Nb. destruct (Ch' a b Eq Nb) as (C1 & C2).
      destruct b as [|x b]; [left; intros ? []|].
      assert (is_end e = false) as Ne. { destruct (snoc_split p e a (x :: b) Eq) as [H|(b' & Eb & Ep)]; [discriminate H|]. apply Nb. rewrite Eb. apply in_or_app. right. left. reflexivity. }
      destruct (Md Ne) as (_ & _ & [Pt|Pk]); [|left; apply C1; exact Pk]. right. exists (0, 0). split; [unfold central; cbn; lia|].
      intros d Id. rewrite <- (app_nil_l (x :: b)), placed_no_dabs in Id by (apply C2; exact Pt). destruct Id.
    - exists ts', r. split; [exact Es|]. exists (p ++ [e]), (rs ++ [r]). split; [exact (srun_snoc trig G ts0 p ts rs e ts' r R Es)|]. split; [exact Iv'|].
      split; [exact (step_tame trig G all ts e ts' r Ai Ac Cm Es)|]. split; [|exact Ch'].
      intros H. rewrite existsb_app. cbn [existsb]. apply orb_prop in H. destruct H as [H|H]; [rewrite (Bg H); reflexivity|rewrite H, orb_false_r; apply orb_true_r].
  Qed.

  (** at the start *)
  Lemma holds_init : forall ok junk pix0, tiled_surface_init G ok junk pix0 = Ok ts0 -> canvas pix0 -> (forall X Y, valid (pixel_of pix0 X Y)) ->
    holds false false false ts0.
  Proof.
    intros ok junk pix0 I0 C0 V0.
    pose proof (init_tame G ok junk pix0 ts0 I0) as A0.
    exists [], []. split; [reflexivity|]. split.
    2:{ split; [exact A0|]. split; [discriminate|]. intros a b Eq _. symmetry in Eq. apply app_eq_nil in Eq. destruct Eq as (_ & ->). split; [intros _ ? []|intros _ ? []]. }
    pose proof (init_ainv G all ok junk pix0 ts0 I0) as Ai. clear A0.
    unfold tiled_surface_init in I0. inv_bind I0. injection I0 as <-.
    constructor; cbn [ts_sf ts_boxes sf_q ts_dirtied ts_num existsb]; auto.
    - apply fresh_keeps. intros (tx, ty). split; [apply C0|]. intros i j Hi Hj.
      specialize (V0 (64 * tx + i) (64 * ty + j)). unfold pixel_of in V0.
      replace ((64 * tx + i) / 64) with tx in V0 by (apply Z.div_unique with i; lia).
      replace ((64 * ty + j) / 64) with ty in V0 by (apply Z.div_unique with j; lia).
      replace ((64 * tx + i) mod 64) with i in V0 by (apply Z.mod_unique with tx; lia).
      replace ((64 * ty + j) mod 64) with j in V0 by (apply Z.mod_unique with ty; lia). exact V0.
    - exists 0%nat. reflexivity.
    - intros i _. left. exact (box_repeat 32 i).
    - intros i _. change (moderate (box (repeat rect0 32) i)). rewrite box_repeat. apply rect0_moderate.
    - discriminate.
    - eexists [], [], _, []. split; [reflexivity|]. split; [reflexivity|]. split; [exists []; reflexivity|]. split; [intros ? []|].
      split; [intros ? []|]. intros _ t [].
  Qed.

  (** every dab of the brush is drawn *)
  Lemma holds_draw : forall begun ts d, holds begun true false ts -> EaselProofs.drawable d ->
    exists ts' m, draw_dab G ts (handed_on d) = Ok (ts', m) /\ holds begun true false ts'.
  Proof.
    intros begun ts d H D. destruct (holds_step begun true false ts (SDab (handed_on d)) true false H) as (ts' & r & Es & H'); cbn; auto.
    - intros d' Eq. injection Eq as <-. split; [apply drawable_workable; auto|apply drawable_inner; exact D].
    - intros _. split; [discriminate|]. auto.
    - cbn [Dab.sstep] in Es. cbn [is_begin] in H'. rewrite orb_false_r in H'. inv_bind Es. destruct v as (ts1, m). injection Es as <- _. exists ts1, m. auto.
  Qed.

  Lemma holds_weak : forall begun a b a' b' ts, holds begun a b ts -> (a' = false -> a = false) -> (b' = false -> b = false) -> holds begun a' b' ts.
  Proof.
    intros begun a b a' b' ts (p & rs & R & Iv & Ac & Bg & Ch) Ha Hb. exists p, rs. split; [exact R|]. split; [exact Iv|]. split; [exact Ac|]. split; [exact Bg|].
    intros x y Eq Ny. destruct (Ch x y Eq Ny) as (C1 & C2). split; [intros H; apply C1; auto|intros H; apply C2; auto].
  Qed.
End Surface.
