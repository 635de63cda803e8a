(** The copies a symmetry makes of a dab can be carried out if the dab can. *)
From Verif Require Import Base F32 F32Proofs Queue QueueProofs Blend Mask MaskProofs BlendProofs OpaProofs RrProofs
  MaskFloatProofs FarProofs Rect Arith Symmetry Plumb PlumbProofs P_Plumb KeepProofs Dab DabProofs HistoryProofs SurfProofs
  SymmetryProofs PassProofs Paint PaintProofs CompleteProofs.
From Coq Require Import Reals Lra ZifyBool.
From Flocq Require Import Core.Core IEEE754.BinarySingleNaN.
From Verif Require P_SymSafe P_Endless BrushProofs.
From Verif Require Import P_Mask P_Blend P_Rect RoiProofs DirtyProofs P_Dab P_Surface P_Paint SessionProofs P_Complete EaselNum SymReach.
Local Open Scope Z_scope.

(** sin and cos of the angle of a dab, as good as a C library gives them *)
Definition trig_ok (trig : trig_oracle) : Prop :=
  forall a : f32, fin a -> let (cs, sn) := trig a in
    between (-1) cs 1 /\ between (-1) sn 1 /\ (Rabs (value cs * value cs + value sn * value sn - 1) <= / 65536)%R.

Lemma zf_between : forall lo hi (x : f32), zf lo x hi -> between (IZR lo) x (IZR hi).
Proof. intros lo hi x (F & H). split; [exact F|exact H]. Qed.

(** a call of set_symmetry_state with a centre within 65536, an angle within a
    million degrees and at most four million lines *)
Definition calm (e : sev) : Prop :=
  match e with
  | SSym _ cx cy angle _ lines => zf (-65536) cx 65536 /\ zf (-65536) cy 65536 /\ zf (-1000000) angle 1000000 /\ lines <= 4000000
  | _ => True
  end.
(** a dab within 440001, with an angle within a million degrees *)
Definition inner (d : dab) : Prop := zf (-440001) (d_x d) 440001 /\ zf (-440001) (d_y d) 440001 /\ zf (-1000000) (d_angle d) 1000000.

(** the symmetries in force and to come *)
Definition tame (ts : tsurf) : Prop := settled (sd_cur (ts_sym ts)) /\ settled (sd_pend (ts_sym ts)).

Section Copies.
  Variables (trig : trig_oracle) (G : trigops num32).
  Notation sstep := (sstep trig paint_mix G).

  Lemma calm_few : forall e, calm e -> few_lines e.
  Proof. intros e H. destruct e; cbn in *; tauto. Qed.

  Lemma update_settled : forall ok d d', wfs G d -> settled (sd_cur d) -> settled (sd_pend d) -> @update_symmetry_state num32 G ok d = Ok d' ->
    settled (sd_cur d') /\ settled (sd_pend d').
  Proof.
    intros ok d d' W C P H. destruct (update_ok G ok d W) as (d1 & E & _ & Ep & _ & K). rewrite E in H. injection H as <-. rewrite Ep. split; [|exact P].
    destruct K as [(-> & _)|[(-> & _)|(_ & -> & _)]]; auto.
  Qed.

  Lemma step_tame : forall all ts e ts' r, ainv G all ts -> tame ts -> calm e -> sstep ts e = Ok (ts', r) -> tame ts'.
  Proof.
    intros all ts e ts' r Ai (C & P) Cm H. destruct e as [act cx cy ang ty lines|ok1 ok2|d|canw canr rows|can roi]; cbn [Dab.sstep] in H.
    - injection H as <- _. split; [exact C|]. cbn [ts_sym set_pending sd_pend]. destruct Cm as (X & Y & An & Ln). constructor; cbn [s_cx s_cy s_angle s_lines]; auto. rewrite fl_small by lia. lia.
    - inv_bind H. injection H as <- _. unfold begin_atomic in E. inv_bind E. unfold prepare_bounding_boxes in E. inv_bind E. inv_bind E. destruct v2 as ((?, ?), ?). inv_bind E. injection E as <-.
      unfold tame. cbn [ts_sym]. eapply update_settled; [|exact C|exact P|exact E0]. destruct Ai as [I _]. apply (P_SymSafe.i_wf _ _ _ _ I).
    - inv_bind H. destruct v as (ts1, m). injection H as <- _. unfold tame. rewrite (draw_sym trig G _ _ _ _ E). split; auto.
    - inv_bind H. destruct v as (sf, seen). injection H as <- _. split; auto.
    - inv_bind H. destruct v as (ts1, w). injection H as <- _. unfold end_atomic in E. inv_bind E. destruct roi as [(rects, cap)|]; [inv_bind E|]; injection E as <- _; split; auto.
  Qed.

  Lemma zero_settled : forall ty n, n <= 4000000 -> settled (mkSym ty (nofZ 0) (nofZ 0) (nofZ 0) n).
  Proof.
    intros ty n H. assert (zf 0 (f_of_Z 0) 0) as Z by (apply zf_Z; lia).
    constructor; cbn [s_cx s_cy s_angle s_lines]; auto; change (@nofZ num32 0) with (f_of_Z 0); apply (zf_weak _ _ _ _ _ Z); lia.
  Qed.
  Lemma init_tame : forall ok junk pix0 ts0, tiled_surface_init G ok junk pix0 = Ok ts0 -> tame ts0.
  Proof.
    intros ok junk pix0 ts0 I0. unfold tiled_surface_init in I0. inv_bind I0. injection I0 as <-. unfold tame. cbn [ts_sym]. destruct (default_wf G ok) as (d & Ed & W & _ & Pd & _).
    unfold default_symmetry_data in E, Ed. rewrite alloc_ok in E, Ed by lia. cbv beta iota zeta in E, Ed. cbn [sd_cur sd_pend sd_changes sd_active sd_mats] in E, Ed. destruct ok.
    - refine (update_settled true _ _ _ _ _ E).
      + constructor; cbn [sd_cur sd_pend sd_num sd_mats]; try (split; cbn; unfold MAXLINES; auto; lia); [lia|]. right. exists (resize [] (Z.to_nat 16)). split; auto. rewrite resize_length. cbn. split; [lia|]. split; [lia|]. intros; lia.
      + cbn [sd_cur]. apply zero_settled. lia.
      + cbn [sd_pend]. apply zero_settled. lia.
    - injection E as <-. cbn [sd_cur sd_pend]. split; apply zero_settled; lia.
  Qed.

  Section Work.
  Hypotheses (T : trig_ok trig) (K : turns_ok G).

  Lemma copies_workable : forall all ts d d', ainv G all ts -> tame ts -> inner d -> workable trig d -> In d' (copies_of G ts d) -> workable trig d'.
  Proof.
    intros all ts d d' [I _] (St & _) (X & Y & An) [[Rx Ry Rr Rh Rs Ra _] Pt Hr Gap Lv Lk] H. unfold copies_of in H. destruct (prepare_op d) as [[o|]| |]; try destruct H.
    pose proof (P_SymSafe.i_wf _ _ _ _ I) as W. pose proof (sinv_enough G all ts I) as En.
    destruct (pass_ok G (ts_sym ts) (ts_num ts) (d_x d : num32) (d_y d : num32) (d_angle d : num32) W En) as (l & used & El & _ & F). rewrite El in H.
    apply in_map_iff in H. destruct H as (e & <- & Ie).
    assert (exists ka, In ka (order G (sd_cur (ts_sym ts)) (d_angle d : num32)) /\ is_dab G (sd_cur (ts_sym ts)) (d_x d : num32) (d_y d : num32) used ka e) as (ka & Ik & De).
    { destruct (sd_active (ts_sym ts) && negb (sd_num (ts_sym ts) =? 0)); [|inversion F; subst; destruct Ie].
      clear - F Ie. induction F as [|ka x ks l H F IH]; [destruct Ie|]. destruct Ie as [->|Ie]; [exists ka; split; [left; reflexivity|exact H]|].
      destruct (IH Ie) as (k & I & D). exists k. split; [right; exact I|exact D]. }
    pose proof (copy_angles G K _ _ St (w_cur _ _ W) An) as Fa. rewrite Forall_forall in Fa. destruct (Fa ka Ik) as (Hk & Fk).
    destruct (copy_reach G K _ (fst ka) _ _ St (w_cur _ _ W) Hk X Y) as (Zx & Zy). destruct De as (Dp & Da & _). rewrite <- Dp in Zx, Zy. cbn [fst snd] in Zx, Zy. assert (fin (e_angle e : f32)) as Fe by (exact (eq_ind_r (fun z : f32 => fin z) Fk Da)).
    constructor; cbn [moved d_x d_y d_radius d_r d_g d_b d_opaque d_hard d_soft d_alpha d_aspect d_angle d_lock d_colorize d_poster d_pnum d_paint]; auto.
    constructor; cbn [moved d_x d_y d_radius d_r d_g d_b d_opaque d_hard d_soft d_alpha d_aspect d_angle d_lock d_colorize d_poster d_pnum d_paint]; auto.
    - apply (zf_between (-1048576) 1048576). apply (zf_weak _ _ _ _ _ Zx); lia.
    - apply (zf_between (-1048576) 1048576). apply (zf_weak _ _ _ _ _ Zy); lia.
    - apply T. exact Fe.
  Qed.
  End Work.
End Copies.
