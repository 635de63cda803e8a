(** The rectangles kept for end_atomic: what one dab records, what the array
    looks like during an atomic operation, what is written to the caller. *)
From Verif Require Import Base F32 F32Proofs Queue QueueProofs Blend BlendProofs Mask MaskProofs OpaProofs RrProofs
  MaskFloatProofs FarProofs Rect Arith Symmetry Plumb PlumbProofs KeepProofs Dab DabProofs HistoryProofs SurfProofs
  SymmetryProofs PassProofs.
From Coq Require Import Reals Lra ZifyBool.
From Flocq Require Import Core.Core IEEE754.BinarySingleNaN.
From Verif Require P_SymSafe.
From Verif Require Import P_Mask P_Rect.
Local Open Scope Z_scope.

Lemma int_val_inv : forall z w, int_val z = Ok w -> w = z.
Proof. intros z w. unfold int_val. destruct (Base.in_int z); congruence. Qed.

(** ** One dab *)
Lemma floor_int : forall v : f32, bd v 22 ->
  d_floor_int (d_of_f v) = Ok (Zfloor (b2r v)) /\ dfloor_Z (d_of_f v) = Some (Zfloor (b2r v)) /\ -4194304 <= Zfloor (b2r v) <= 4194304.
Proof.
  intros v (F & H). destruct (d_of_f_exact v F) as (E & FD).
  change (bpow radix2 22) with 4194304%R in H. apply Rabs_le_inv in H.
  assert (-4194304 <= Zfloor (b2r v) <= 4194304) as B.
  { split; [apply (Zfloor_lub (-4194304)); simpl; lra|]. apply le_IZR. pose proof (Zfloor_lb (b2r v)). lra. }
  assert (dfloor_Z (d_of_f v) = Some (Zfloor (b2r v))) as D by (rewrite dfloor_spec, E by auto; reflexivity).
  split; [|auto]. unfold d_floor_int. rewrite D. apply int_val_ok. unfold INT_MIN, INT_MAX. lia.
Qed.

Lemma bbox_axis_ok : forall v r, bd v 20 -> fin r -> (/ 16 <= b2r r <= 65536)%R ->
  bbox_axis v (fadd r f1) = Ok (lo_px v r, hi_px v r) /\ -4194304 <= lo_px v r <= 4194304 /\ -4194304 <= hi_px v r <= 4194304.
Proof.
  intros v r Bv Fr Hr. destruct (edge_vals v r Bv Fr Hr) as (X1 & X2 & _).
  destruct (floor_int _ X1) as (A1 & _ & A2). destruct (floor_int _ X2) as (_ & B1 & B2).
  fold (lo_px v r) in *. fold (hi_px v r) in *. split; [|auto].
  unfold bbox_axis. rewrite A1. cbn [obind]. unfold lo_px, hi_px in *. rewrite B1.
  rewrite int_val_ok by (unfold INT_MIN, INT_MAX; lia). cbn [obind].
  rewrite int_val_ok by (unfold INT_MIN, INT_MAX; lia). cbn [obind]. do 2 f_equal. lia.
Qed.

(** whenever growing a rectangle succeeds, it grows as it should *)
Lemma axis_grows : forall p s x p' s', 0 < s -> expand_axis p s x = Ok (p', s') ->
  p' = Z.min p x /\ s' = Z.max (p + s) (x + 1) - Z.min p x.
Proof.
  intros p s x p' s' Hs H. unfold expand_axis in H. destruct (Z.ltb_spec x p).
  - apply obind_ok in H. destruct H as (d & E1 & H). apply obind_ok in H. destruct H as (z & E2 & H).
    apply int_val_inv in E1, E2. injection H as <- <-. lia.
  - apply obind_ok in H. destruct H as (e & E1 & H). apply int_val_inv in E1. subst e. destruct (Z.leb_spec (p + s) x).
    + apply obind_ok in H. destruct H as (d & E1 & H). apply obind_ok in H. destruct H as (z & E2 & H).
      apply int_val_inv in E1, E2. injection H as <- <-. lia.
    + injection H as <- <-. lia.
Qed.

Lemma point_grows : forall r x y r', proper r -> expand_point r x y = Ok r' -> r' = join_point r x y.
Proof.
  intros r x y r' P H. unfold expand_point, join_point in *. destruct (Z.eqb_spec (rw r) 0); [congruence|].
  destruct P as [P|(P1 & P2)]; [contradiction|].
  apply obind_ok in H. destruct H as ((px, sx) & E1 & H). apply obind_ok in H. destruct H as ((py, sy) & E2 & H).
  injection H as <-. apply axis_grows in E1, E2; auto. destruct E1 as (-> & ->), E2 as (-> & ->). reflexivity.
Qed.

Lemma point_spec : forall r x y r', proper r -> expand_point r x y = Ok r' -> solid r' /\ inside r' x y /\ sub r r'.
Proof.
  intros r x y r' P H. rewrite (point_grows _ _ _ _ P H). split; [apply join_solid; auto|]. apply join_in. auto.
Qed.

Lemma sub_trans : forall a b c, sub a b -> sub b c -> sub a c.
Proof. unfold sub. auto. Qed.
Lemma sub_refl : forall a, sub a a. Proof. unfold sub. auto. Qed.

(** all pixels between two corners *)
Lemma corners : forall r x0 y0 x1 y1, inside r x0 y0 -> inside r x1 y1 ->
  forall X Y, x0 <= X <= x1 -> y0 <= Y <= y1 -> inside r X Y.
Proof. unfold inside. intros. lia. Qed.

Lemma rect_grows : forall r o r', proper r -> proper o -> expand_rect r o = Ok r' -> solid r' /\ sub r r' /\ sub o r'.
Proof.
  intros r o r' P Po H. unfold expand_rect in H.
  apply obind_ok in H. destruct H as (r1 & E1 & H). apply obind_ok in H. destruct H as (a & Ea & H).
  apply obind_ok in H. destruct H as (a' & Ea' & H). apply obind_ok in H. destruct H as (b & Eb & H).
  apply obind_ok in H. destruct H as (b' & Eb' & H). apply int_val_inv in Ea, Ea', Eb, Eb'. subst.
  destruct (point_spec _ _ _ _ P E1) as (S1 & I1 & U1). destruct (point_spec _ _ _ _ (solid_proper _ S1) H) as (S2 & I2 & U2).
  split; [auto|]. split; [eapply sub_trans; eauto|].
  intros X Y IO. eapply corners; [apply U2; exact I1|exact I2| |]; unfold inside in IO; lia.
Qed.

(** the pixels an operation may reach *)
Definition op_area (o : op) (X Y : Z) : Prop :=
  lo_px (o_x o) (o_radius o) <= X <= hi_px (o_x o) (o_radius o) /\
  lo_px (o_y o) (o_radius o) <= Y <= hi_px (o_y o) (o_radius o).
Definition covers (r : rect) (o : op) : Prop := forall X Y, op_area o X Y -> inside r X Y.

Lemma bbox_spec : forall trig o r r', op_ok trig o -> proper r ->
  update_dirty_bbox r (o_x o) (o_y o) (o_radius o) = Ok r' -> solid r' /\ sub r r' /\ covers r' o.
Proof.
  intros trig o r r' [D R] P H. pose proof D as [Dx Dy (Fr & Hr) _ _ _ _].
  assert (Hr' : (/ 16 <= b2r (o_radius o) <= 65536)%R) by lra.
  destruct (bbox_axis_ok _ _ Dx Fr Hr') as (Ex & _). destruct (bbox_axis_ok _ _ Dy Fr Hr') as (Ey & _).
  unfold update_dirty_bbox in H. rewrite Ex, Ey in H. cbn [obind] in H.
  apply obind_ok in H. destruct H as (r1 & E1 & H).
  destruct (point_spec _ _ _ _ P E1) as (S1 & I1 & U1). destruct (point_spec _ _ _ _ (solid_proper _ S1) H) as (S2 & I2 & U2).
  split; [auto|]. split; [eapply sub_trans; eauto|].
  intros X Y (AX & AY). eapply corners; [apply U2; exact I1|exact I2|auto|auto].
Qed.

Lemma not_area_away : forall trig o X Y, op_ok trig o -> ~ op_area o X Y ->
  away X (o_x o) (o_radius o) \/ away Y (o_y o) (o_radius o).
Proof.
  intros trig o X Y [D R] N. pose proof D as [Dx Dy (Fr & Hr) _ _ _ _].
  assert (Hr' : (/ 16 <= b2r (o_radius o) <= 65536)%R) by lra. unfold op_area in N.
  destruct (Z_le_dec (lo_px (o_x o) (o_radius o)) X); [|left; apply outside_away; auto; lia].
  destruct (Z_le_dec X (hi_px (o_x o) (o_radius o))); [|left; apply outside_away; auto; lia].
  right. apply outside_away; auto. lia.
Qed.

Lemma area_tiles : forall trig o X Y, op_ok trig o -> op_area o X Y ->
  exists ts, op_tiles o = Ok ts /\ In (X / 64, Y / 64) ts.
Proof.
  intros trig o X Y [D R] (AX & AY). pose proof D as [Dx Dy (Fr & Hr) _ _ _ _].
  assert (Hr' : (/ 16 <= b2r (o_radius o) <= 65536)%R) by lra.
  destruct (dab_tiles_ok _ _ _ Dx Dy Fr Hr') as (ts & ET & Mem). exists ts. split; [exact ET|].
  apply Mem. cbn [fst snd]. split; split; apply Z.div_le_mono; lia.
Qed.
