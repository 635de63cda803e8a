(** Invariants of whole surfaces; where a dab can change pixels, whatever its
    position relative to the tiles rounds to. *)
From Verif Require Import Base F32 F32Proofs Queue QueueProofs Blend BlendProofs Mask MaskProofs OpaProofs RrProofs
  MaskFloatProofs FarProofs Rect Arith Symmetry Plumb PlumbProofs KeepProofs Dab DabProofs HistoryProofs.
From Coq Require Import Reals Lra.
From Flocq Require Import Core.Core IEEE754.BinarySingleNaN.
From Verif Require Import P_Mask.
Local Open Scope Z_scope.

Definition away (p : Z) (v r : f32) : Prop := (b2r r + 1 <= Rabs (IZR p + / 2 - b2r v))%R.

Lemma outside_away : forall v r p, bd v 20 -> fin r -> (/ 16 <= b2r r <= 65536)%R ->
  p < lo_px v r \/ hi_px v r < p -> away p v r.
Proof.
  intros v r p Bv Fr Hr H. destruct (edge_vals v r Bv Fr Hr) as (_ & _ & E1 & E2).
  apply Rabs_le_inv in E1, E2. unfold away.
  pose proof (Zfloor_lb (b2r (fsub v (fadd r f1)))) as A1.
  pose proof (Zfloor_ub (b2r (fadd v (fadd r f1)))) as A2. fold (lo_px v r) in A1. fold (hi_px v r) in A2.
  destruct H as [H|H].
  - assert (IZR p + 1 <= IZR (lo_px v r))%R by (rewrite <- (plus_IZR p 1); apply IZR_le; lia).
    rewrite Rabs_left; lra.
  - assert (IZR (hi_px v r) + 1 <= IZR p)%R by (rewrite <- (plus_IZR _ 1); apply IZR_le; lia).
    rewrite Rabs_pos_eq; lra.
Qed.

Lemma local_far : forall v r t i, bd v 20 -> fin r -> (/ 16 <= b2r r <= 65536)%R ->
  lo_px v r / 64 <= t <= hi_px v r / 64 ->
  bd (fsub v (f_of_Z (64 * t))) 20 /\ (away (64 * t + i) v r -> far i (fsub v (f_of_Z (64 * t))) r).
Proof.
  intros v r t i Bv Fr Hr Ht. pose proof (tile_near v r t Bv Fr Hr Ht) as N.
  destruct Bv as (Fv & Hv). change (bpow radix2 20) with 1048576%R in Hv.
  apply Rabs_le_inv in Hv. apply Rabs_le_inv in N.
  assert (Z.abs (64 * t) <= 2000000) as B.
  { assert (-2000000 <= 64 * t <= 2000000); [|lia]. split; apply le_IZR; lra. }
  destruct (f_of_Z_exact (64 * t)) as (Eq & Fq); [lia|].
  destruct (fsub_spec v (f_of_Z (64 * t)) Fv Fq) as (E & F).
  { rewrite Eq. apply Rle_trans with (bpow radix2 20); [change (bpow radix2 20) with 1048576%R; apply Rabs_le; lra|apply bpow_le; lia]. }
  rewrite Eq in E. pose proof (rnd_rel (b2r v - IZR (64 * t))) as R. rewrite <- E in R.
  pose proof e0_small as E0.
  assert (Rabs (b2r (fsub v (f_of_Z (64 * t))) - (b2r v - IZR (64 * t))) <= / 64)%R as R'.
  { eapply Rle_trans; [exact R|]. assert (Rabs (b2r v - IZR (64 * t)) <= 70000)%R by (apply Rabs_le; lra).
    unfold U in *. lra. }
  apply Rabs_le_inv in R'. split.
  - split; auto. change (bpow radix2 20) with 1048576%R. apply Rabs_le. lra.
  - unfold away, far. rewrite plus_IZR. intros A.
    destruct (Rle_lt_dec 0 (IZR (64 * t) + IZR i + / 2 - b2r v)) as [P|P].
    + rewrite Rabs_pos_eq in A by exact P. eapply Rle_trans; [|apply Rle_abs]. lra.
    + rewrite Rabs_left in A by exact P. rewrite <- Rabs_Ropp. eapply Rle_trans; [|apply Rle_abs]. lra.
Qed.

Section Ops.
  Variables (trig : trig_oracle) (mix : mix_oracle) (G : trigops num32).

  (** pixels at least radius + 1 away along an axis are left alone *)
  Lemma op_far_px : forall o t mem mem' ts, op_ok trig o -> op_tiles o = Ok ts -> In t ts -> tile_ok mem ->
    process_op trig mix t o mem = Ok mem' ->
    forall i j, 0 <= i <= 63 -> 0 <= j <= 63 ->
    away (64 * fst t + i) (o_x o) (o_radius o) \/ away (64 * snd t + j) (o_y o) (o_radius o) ->
    pixel_at mem' i j = pixel_at mem i j.
  Proof.
    intros o t mem mem' ts [D R] ET It L H i j Hi Hj Aw.
    destruct (process_op_px trig mix t o mem mem' L H) as (_ & V & x0 & y0 & x1 & y1 & B & Z & Vals & P). cbv zeta in *.
    pose proof D as [Dx Dy (Fr & Hr) Dh Ds Da Dt].
    assert (Hr' : (/ 16 <= b2r (o_radius o) <= 65536)%R) by lra.
    destruct (dab_tiles_ok _ _ _ Dx Dy Fr Hr') as (ts' & ET' & Mem). unfold op_tiles in ET. rewrite ET' in ET. injection ET as ->.
    apply Mem in It. destruct It as (Itx & Ity).
    destruct (local_far _ _ _ i Dx Fr Hr' Itx) as (Bx & Fx). destruct (local_far _ _ _ j Dy Fr Hr' Ity) as (By & Fy).
    assert (V i j = 0) as V0.
    { destruct (Z.eq_dec (V i j) 0) as [|NV]; auto. destruct (Z _ _ NV) as (_ & _ & X & Y).
      pose proof (Vals i j X Y) as E.
      rewrite mask_far in E; [congruence|lia|lia|constructor; auto|exact R|].
      destruct Aw; auto. }
    specialize (P i j Hi Hj). rewrite V0 in P. unfold blend_all in P. cbn in P. congruence.
  Qed.

  (** *** Invariants of a surface history *)
  Section Inv.
    Variables (P : tile -> list Z -> Prop) (Q : tile -> op -> Prop).
    Hypothesis step : forall t o mem mem', Q t o -> P t mem -> process_op trig mix t o mem = Ok mem' -> P t mem'.
    Notation skeeps := (keeps op (list Z) P Q).

    Lemma ops_step : forall t o v v', Q t o -> P t v -> apply op (list Z) (op_steps trig mix) t v o = Ok v' -> P t v'.
    Proof. intros t o v v' A B H. rewrite op_steps_ok in H. eapply step; eauto. Qed.

    (** the accepted dabs satisfy [Q] on the tiles they are queued on *)
    Definition dab_Q (d : dab) : Prop :=
      forall o ts t, prepare_op d = Ok (Some o) -> op_tiles o = Ok ts -> In t ts -> Q t o.

    Lemma srun_keeps : forall evs ts rs ts' rs',
      ofold (fun (a : tsurf * list sres) (e : sev) => let* (ts, r) := sstep trig mix G (fst a) e in Ok (ts, snd a ++ [r])) evs (ts, rs) = Ok (ts', rs') ->
      skeeps (ts_sf ts) -> (forall d, In d (placed trig mix G ts evs) -> dab_Q d) -> skeeps (ts_sf ts').
    Proof.
      intros evs ts rs ts' rs' H K A. destruct (srun_hist_gen _ _ _ _ _ _ _ _ [] H) as (out & E).
      eapply (events_keep op (list Z) (op_steps trig mix) P Q ops_step); [exact K| |exact E].
      intros t o I. rewrite drawn_hist in I. apply in_flat_map in I. destruct I as (d & Id & I).
      rewrite drawn_one in I. pose proof (A d Id) as Ad. unfold dab_Q in Ad.
      destruct (prepare_op d) as [[o'|]| |] eqn:EP; try contradiction.
      destruct (op_tiles o') as [tiles| |] eqn:ET; try contradiction.
      destruct (in_dec tile_eq_dec t tiles); [|contradiction]. destruct I as [<-|[]]. eapply Ad; eauto.
    Qed.

    Lemma fresh_keeps : forall pix, (forall t, P t (pix t)) -> skeeps (mkSurf operation_queue_new pix).
    Proof.
      intros pix H. constructor; cbn [sf_q sf_pix]; auto.
      - apply wf_new.
      - intros t o. rewrite pend_new. intros [].
    Qed.
  End Inv.
End Ops.
