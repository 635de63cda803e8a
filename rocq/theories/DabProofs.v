(** Drawing a dab, seen from a single pixel of the plane. *)
From Verif Require Import Base F32 F32Proofs Queue QueueProofs Blend BlendProofs Mask MaskProofs OpaProofs RrProofs
  MaskFloatProofs P_Mask FarProofs Rect Arith Symmetry Plumb PlumbProofs Dab.
From Coq Require Import Reals Lra Psatz.
From Flocq Require Import Core.Core IEEE754.BinarySingleNaN.
Local Open Scope Z_scope.

(** ** Moving the origin by a whole tile *)
Section Shift.
  #[local] Transparent fsub.
  Lemma fsub_correct : forall a b : f32, fin a -> fin b -> (Rabs (b2r a - b2r b) <= bpow radix2 127)%R ->
    b2r (fsub a b) = rnd32 (b2r a - b2r b) /\ fin (fsub a b) /\
    Bsign (fsub a b) = match Rcompare (b2r a - b2r b) 0 with
                       | Eq => Bsign a && negb (Bsign b) | Lt => true | Gt => false end.
  Proof.
    intros a b Fa Fb H. destruct (fsub_spec a b Fa Fb H) as (E & F). split; [exact E|]. split; [exact F|].
    pose proof (Bminus_correct 24 128 prec24 emax24 mode_NE a b Fa Fb) as C.
    rewrite Rlt_bool_true in C; [apply C|].
    change (Rabs (rnd32 (b2r a - b2r b)) < bpow radix2 128)%R.
    apply Rle_lt_trans with (bpow radix2 127); [|apply bpow_lt; lia]. apply rnd_bpow; [lia|exact H].
  Qed.
End Shift.

Lemma same_float : forall a b : f32, fin a -> fin b -> b2r a = b2r b -> b2r a <> 0%R -> a = b.
Proof.
  intros a b Fa Fb E N. apply B2R_inj; auto.
  - destruct a; simpl in *; auto; try (exfalso; apply N; reflexivity); discriminate.
  - rewrite E in N. destruct b; simpl in *; auto; try (exfalso; apply N; reflexivity); discriminate.
Qed.

(** equal exact differences give equal floats (zero differences need nonzero operands) *)
Lemma fsub_same : forall a b c d : f32, fin a -> fin b -> fin c -> fin d ->
  (b2r a - b2r b = b2r c - b2r d)%R -> (Rabs (b2r a - b2r b) <= bpow radix2 127)%R ->
  (b2r a - b2r b = 0 -> b2r b <> 0 /\ b2r d <> 0)%R ->
  fsub a b = fsub c d.
Proof.
  intros a b c d Fa Fb Fc Fd E H Z.
  destruct (fsub_correct a b Fa Fb H) as (E1 & F1 & S1).
  destruct (fsub_correct c d Fc Fd ltac:(rewrite <- E; exact H)) as (E2 & F2 & S2).
  apply B2R_Bsign_inj; auto.
  - rewrite E1, E2, E. reflexivity.
  - rewrite S1, S2, <- E. destruct (Rcompare_spec (b2r a - b2r b) 0) as [|X|]; auto.
    destruct (Z X) as (N1 & N2).
    assert (a = b) as -> by (apply same_float; auto; lra).
    assert (c = d) as -> by (apply same_float; auto; lra).
    destruct (Bsign b), (Bsign d); reflexivity.
Qed.

Lemma fzero_sign : Bsign (f_of_Z 0) = false. Proof. vm_compute. reflexivity. Qed.

Lemma fsub_zero : forall a : f32, fin a -> (Rabs (b2r a) <= bpow radix2 127)%R -> fsub a (f_of_Z 0) = a.
Proof.
  intros a Fa H. destruct (f_of_Z_exact 0) as (E0 & F0); [lia|].
  destruct (fsub_correct a (f_of_Z 0) Fa F0) as (E & F & S); [rewrite E0, Rminus_0_r; exact H|].
  rewrite E0, Rminus_0_r in *. apply B2R_Bsign_inj; auto.
  - rewrite E. apply rnd32_id, rep32_b2r.
  - rewrite S, fzero_sign, andb_true_r. destruct (Rcompare_spec (b2r a) 0) as [X|X|X]; auto.
    + destruct a as [|b| |b m e]; cbn in X; try lra; try discriminate Fa.
      destruct b; [reflexivity|]. exfalso. apply (Rlt_not_le _ _ X). apply F2R_ge_0. simpl. lia.
    + destruct a as [|b| |b m e]; cbn in X; try lra; try discriminate Fa.
      destruct b; [|reflexivity]. exfalso. apply (Rlt_not_le _ _ X). apply F2R_le_0. simpl. lia.
Qed.

(** one axis: [v] the position of the dab, [o] the origin of the tile, [p] the
    pixel inside the tile *)
Lemma shift_axis : forall v o p, bd v 20 -> (Z.abs (o + p) <= 2097152)%Z -> (exists t, o = 64 * t) -> (0 <= p <= 63)%Z ->
  b2r (fsub v (f_of_Z o)) = (b2r v - IZR o)%R ->
  let v' := fsub v (f_of_Z o) in
  fsub v' (f_of_Z p) = fsub v (f_of_Z (o + p)) /\
  fsub (fadd (f_of_Z p) fhalf) v' = fsub (fadd (f_of_Z (o + p)) fhalf) v.
Proof.
  intros v o p (Fv & Hv) Hop (t & Ht) Hp E. cbv zeta.
  change (bpow radix2 20) with 1048576%R in Hv. apply Rabs_le_inv in Hv.
  destruct (f_of_Z_exact o) as (Eo & Fo); [lia|]. destruct (f_of_Z_exact p) as (Ep & Fp); [lia|].
  destruct (f_of_Z_exact (o + p)) as (Eq & Fq); [lia|].
  assert (Ho : (-2097215 <= IZR o <= 2097215)%R) by (split; [apply (IZR_le (-2097215))|apply (IZR_le o 2097215)]; lia).
  assert (Hp' : (0 <= IZR p <= 63)%R) by (split; [apply (IZR_le 0)|apply (IZR_le p 63)]; lia).
  assert (big : forall z, (Rabs z <= 8000000 -> Rabs z <= bpow radix2 127)%R).
  { intros z Hz. apply Rle_trans with (bpow radix2 23); [change (bpow radix2 23) with 8388608%R; lra|apply bpow_le; lia]. }
  destruct (fsub_spec v (f_of_Z o) Fv Fo) as (_ & Fv'); [rewrite Eo; apply big, Rabs_le; lra|].
  rewrite plus_IZR in Eq. split.
  - destruct (Z.eq_dec o 0) as [Z0|NZ].
    { rewrite Z0. rewrite fsub_zero by (auto; apply big, Rabs_le; lra). reflexivity. }
    destruct (Z.eq_dec p 0) as [P0|NP].
    { rewrite P0, Z.add_0_r. apply fsub_zero; auto. rewrite E. apply big, Rabs_le. lra. }
    apply fsub_same; auto.
    + rewrite E, Ep, Eq. ring.
    + rewrite E, Ep. apply big, Rabs_le. lra.
    + intros _. rewrite Ep, Eq, <- plus_IZR. split; apply (IZR_neq _ 0); lia.
  - assert (H64 : forall q, (Z.abs q <= 2097152)%Z -> b2r (fadd (f_of_Z q) fhalf) = (IZR q + / 2)%R /\ fin (fadd (f_of_Z q) fhalf)).
    { intros q Hq. destruct (f_of_Z_exact q) as (E1 & F1); [lia|]. destruct fhalf_val as (VH & FH).
      assert (-2097152 <= IZR q <= 2097152)%R by (split; [apply (IZR_le (-2097152))|apply (IZR_le q 2097152)]; lia).
      destruct (fadd_spec (f_of_Z q) fhalf F1 FH) as (E2 & F2); [rewrite E1, VH; apply big, Rabs_le; lra|].
      split; auto. rewrite E2, E1, VH. apply rnd32_id.
      replace (IZR q + / 2)%R with (IZR (2 * q + 1) * bpow radix2 (-1))%R.
      - apply rep32_scaled; lia.
      - rewrite plus_IZR, mult_IZR. simpl. lra. }
    destruct (H64 p ltac:(lia)) as (A1 & A2). destruct (H64 (o + p)%Z ltac:(lia)) as (B1 & B2).
    assert (odd : forall q, (IZR q + / 2 <> 0)%R).
    { intros q X. assert (IZR (2 * q + 1) = 0)%R by (rewrite plus_IZR, mult_IZR; lra).
      apply eq_IZR_R0 in H. lia. }
    apply fsub_same; auto.
    + rewrite A1, B1, E, plus_IZR. ring.
    + rewrite A1, E. apply big, Rabs_le. lra.
    + intros Z. rewrite A1 in Z. pose proof (odd p). pose proof (odd (o + p)%Z) as O2. rewrite plus_IZR in O2.
      split; rewrite ?E in *; lra.
Qed.

Lemma rr_shift : forall trig x y r a angle ox oy i j, bd x 20 -> bd y 20 ->
  (Z.abs (ox + i) <= 2097152)%Z -> (Z.abs (oy + j) <= 2097152)%Z ->
  (exists t, ox = 64 * t) -> (exists t, oy = 64 * t) -> (0 <= i <= 63)%Z -> (0 <= j <= 63)%Z ->
  b2r (fsub x (f_of_Z ox)) = (b2r x - IZR ox)%R -> b2r (fsub y (f_of_Z oy)) = (b2r y - IZR oy)%R ->
  rr_at trig (fsub x (f_of_Z ox)) (fsub y (f_of_Z oy)) r a angle i j = rr_at trig x y r a angle (ox + i) (oy + j).
Proof.
  intros trig x y r a angle ox oy i j Bx By Hx Hy Ox Oy Hi Hj Ex Ey.
  destruct (shift_axis x ox i Bx Hx Ox Hi Ex) as (X1 & X2). destruct (shift_axis y oy j By Hy Oy Hj Ey) as (Y1 & Y2).
  cbv zeta in *. unfold rr_at. destruct (trig angle) as (cs, sn).
  destruct (flt r f3).
  - unfold calculate_rr_antialiased. rewrite X1, Y1. reflexivity.
  - unfold calculate_rr. rewrite X2, Y2. reflexivity.
Qed.

Lemma mask_shift : forall trig x y r h s a angle ox oy i j, bd x 20 -> bd y 20 ->
  (Z.abs (ox + i) <= 2097152)%Z -> (Z.abs (oy + j) <= 2097152)%Z ->
  (exists t, ox = 64 * t) -> (exists t, oy = 64 * t) -> (0 <= i <= 63)%Z -> (0 <= j <= 63)%Z ->
  b2r (fsub x (f_of_Z ox)) = (b2r x - IZR ox)%R -> b2r (fsub y (f_of_Z oy)) = (b2r y - IZR oy)%R ->
  mask_value trig (fsub x (f_of_Z ox)) (fsub y (f_of_Z oy)) r h s a angle i j =
  mask_value trig x y r h s a angle (ox + i) (oy + j).
Proof. intros. unfold mask_value. rewrite rr_shift; auto. Qed.

(** ** Pixels outside the box are far *)
Lemma edge_vals : forall v r, bd v 20 -> fin r -> (/ 16 <= b2r r <= 65536)%R ->
  bd (fsub v (fadd r f1)) 22 /\ bd (fadd v (fadd r f1)) 22 /\
  (Rabs (b2r (fsub v (fadd r f1)) - (b2r v - b2r r - 1)) <= / 8)%R /\
  (Rabs (b2r (fadd v (fadd r f1)) - (b2r v + b2r r + 1)) <= / 8)%R.
Proof.
  intros v r Bv Fr Hr. destruct f1_val as (V1 & F1).
  destruct (fringe_ap r Fr ltac:(lra)) as (Bf & _). 
  assert (bd (fsub v (fadd r f1)) (21 + 1)) as B1 by (apply bd_sub; auto; [apply bd_weak with 20%Z; auto; lia|lia]).
  assert (bd (fadd v (fadd r f1)) (21 + 1)) as B2 by (apply bd_add; auto; [apply bd_weak with 20%Z; auto; lia|lia]).
  split; [exact B1|]. split; [exact B2|].
  destruct Bv as (Fv & Hv). change (bpow radix2 20) with 1048576%R in Hv. apply Rabs_le_inv in Hv.
  assert (Big : forall z, (Rabs z <= 2097152 -> Rabs z <= bpow radix2 127 /\ Rabs (rnd32 z - z) <= / 16)%R).
  { intros z Hz. split.
    - apply Rle_trans with (bpow radix2 21); [exact Hz|apply bpow_le; lia].
    - change (/ 16)%R with (bpow radix2 (21 - 25)). apply rnd32_err; [exact Hz|lia]. }
  destruct (Big (b2r r + b2r f1)%R) as (L0 & _); [rewrite V1; apply Rabs_le; lra|].
  destruct (fadd_spec r f1 Fr F1 L0) as (E & F). rewrite V1 in E.
  assert (X : (Rabs (rnd32 (b2r r + 1) - (b2r r + 1)) <= / 128)%R).
  { change (/ 128)%R with (bpow radix2 (18 - 25)). apply rnd32_err; [change (bpow radix2 18) with 262144%R; apply Rabs_le; lra|lia]. }
  rewrite <- E in X. apply Rabs_le_inv in X.
  destruct (Big (b2r v - b2r (fadd r f1))%R) as (L1 & M1); [apply Rabs_le; lra|].
  destruct (Big (b2r v + b2r (fadd r f1))%R) as (L2 & M2); [apply Rabs_le; lra|].
  destruct (fsub_spec v (fadd r f1) Fv F L1) as (E1 & _). destruct (fadd_spec v (fadd r f1) Fv F L2) as (E2 & _).
  rewrite E1, E2. apply Rabs_le_inv in M1, M2. split; apply Rabs_le; lra.
Qed.

Lemma outside_far : forall v r lo hi p, bd v 20 -> fin r -> (/ 16 <= b2r r <= 65536)%R ->
  (IZR lo <= b2r (fsub v (fadd r f1)) < IZR lo + 1)%R -> (IZR hi <= b2r (fadd v (fadd r f1)) < IZR hi + 1)%R ->
  p < lo \/ hi < p -> far p v r.
Proof.
  intros v r lo hi p Bv Fr Hr Lo Hi H. destruct (edge_vals v r Bv Fr Hr) as (_ & _ & E1 & E2).
  apply Rabs_le_inv in E1, E2. unfold far.
  destruct H as [H|H].
  - assert (IZR p + 1 <= IZR lo)%R by (rewrite <- (plus_IZR p 1); apply IZR_le; lia).
    rewrite Rabs_left by lra. lra.
  - assert (IZR hi + 1 <= IZR p)%R by (rewrite <- (plus_IZR hi 1); apply IZR_le; lia).
    rewrite Rabs_pos_eq by lra. lra.
Qed.

Lemma tile_coord_ok : forall v : f32, bd v 22 -> tile_coord v = Ok (Zfloor (b2r v) / 64).
Proof.
  intros v (F & H). destruct (d_of_f_exact v F) as (E & FD). unfold tile_coord. rewrite dfloor_spec, E by auto.
  change (bpow radix2 22) with 4194304%R in H. apply Rabs_le_inv in H.
  assert (-4194304 <= Zfloor (b2r v) <= 4194304).
  { split; [apply (Zfloor_lub (-4194304)); simpl; lra|]. apply le_IZR. pose proof (Zfloor_lb (b2r v)). lra. }
  unfold int_val, Base.in_int, TILE, INT_MIN, INT_MAX.
  assert (-65536 <= Zfloor (b2r v) / 64 <= 65536) by (split; [apply Z.div_le_lower_bound|apply Z.div_le_upper_bound]; lia).
  replace ((_ <=? _) && _) with true by lia. reflexivity.
Qed.

(** the pixels covered by the box of a dab *)
Definition lo_px (v r : f32) : Z := Zfloor (b2r (fsub v (fadd r f1))).
Definition hi_px (v r : f32) : Z := Zfloor (b2r (fadd v (fadd r f1))).
Lemma lo_hi_far : forall v r p, bd v 20 -> fin r -> (/ 16 <= b2r r <= 65536)%R ->
  p < lo_px v r \/ hi_px v r < p -> far p v r.
Proof.
  intros v r p Bv Fr Hr H. apply outside_far with (lo_px v r) (hi_px v r); auto; unfold lo_px, hi_px;
    split; try apply Zfloor_lb; apply Zfloor_ub.
Qed.

Lemma in_grid : forall a b c d t,
  In t (flat_map (fun ty => map (fun tx => (tx, ty)) (zrange a (Z.to_nat (b - a + 1)))) (zrange c (Z.to_nat (d - c + 1)))) <->
  a <= fst t <= b /\ c <= snd t <= d.
Proof.
  intros a b c d (tx, ty). rewrite in_flat_map. cbn [fst snd]. split.
  - intros (y & Iy & I). apply in_map_iff in I. destruct I as (x & E & Ix). inversion E; subst.
    apply in_zrange in Ix, Iy. lia.
  - intros (Hx & Hy). exists ty. split; [apply in_zrange; lia|]. apply in_map_iff. exists tx.
    split; auto. apply in_zrange; lia.
Qed.

Lemma NoDup_grid : forall xs ys, NoDup xs -> NoDup ys ->
  NoDup (flat_map (fun ty : Z => map (fun tx : Z => (tx, ty)) xs) ys).
Proof.
  intros xs ys Nx Ny. induction Ny as [|y ys I N IH]; simpl; [constructor|].
  assert (NoDup (map (fun tx => (tx, y)) xs)) as M.
  { clear - Nx. induction Nx; simpl; constructor; auto. rewrite in_map_iff. intros (z & E & I). inversion E; subst. contradiction. }
  assert (forall t, In t (map (fun tx => (tx, y)) xs) -> ~ In t (flat_map (fun ty => map (fun tx => (tx, ty)) xs) ys)) as D.
  { intros t A B. apply in_map_iff in A. destruct A as (x & <- & _). apply in_flat_map in B.
    destruct B as (y' & Iy & B). apply in_map_iff in B. destruct B as (x' & E & _). inversion E; subst. contradiction. }
  clear I N Nx. induction M as [|t l It Ml IHl]; simpl; auto. constructor.
  - rewrite in_app_iff. intros [A|A]; [contradiction|]. apply (D t); simpl; auto.
  - apply IHl. intros t' A. apply D. simpl. auto.
Qed.

Lemma dab_tiles_nodup : forall x y r ts, dab_tiles x y r = Ok ts -> NoDup ts.
Proof.
  intros x y r ts H. unfold dab_tiles in H.
  repeat match goal with H : obind ?e _ = Ok _ |- _ => destruct e eqn:?; cbn [obind] in H; try discriminate end.
  injection H as <-. apply NoDup_grid; apply NoDup_zrange.
Qed.

Lemma dab_tiles_ok : forall x y r, bd x 20 -> bd y 20 -> fin r -> (/ 16 <= b2r r <= 65536)%R ->
  exists ts, dab_tiles x y r = Ok ts /\
    forall t, In t ts <-> lo_px x r / 64 <= fst t <= hi_px x r / 64 /\ lo_px y r / 64 <= snd t <= hi_px y r / 64.
Proof.
  intros x y r Bx By Fr Hr.
  destruct (edge_vals x r Bx Fr Hr) as (X1 & X2 & _). destruct (edge_vals y r By Fr Hr) as (Y1 & Y2 & _).
  unfold dab_tiles. rewrite !tile_coord_ok by auto. cbn [obind]. eexists. split; [reflexivity|].
  intros t. rewrite in_grid. unfold lo_px, hi_px. tauto.
Qed.

(** ** One operation *)
Lemma ofold_map : forall S A B (g : A -> B) (f : S -> B -> outcome S) l s,
  ofold f (map g l) s = ofold (fun s a => f s (g a)) l s.
Proof. induction l as [|a l IH]; intros s; simpl; auto. destruct (f s (g a)); simpl; auto. Qed.

Section Ops.
  Variables (trig : trig_oracle) (mix : mix_oracle).
  Notation modes := (modes mix).
  Notation op_mask := (op_mask trig).
  Notation process_op := (process_op trig mix).
  Notation op_steps := (op_steps trig mix).

  Definition px_step (b : Z -> pixel -> outcome pixel) (mem : list Z) (e : Z * Z) : outcome (list Z) :=
    let* p := read_px mem (fst e) in
    let* p' := b (snd e) p in
    Ok (write_px mem (fst e) p').

  Lemma entries_loop : forall b n mask, (length mask <= n)%nat -> forall q mem,
    mask_loop (fun mem q m => px_step b mem (q, m)) mask q mem =
    let* mem := ofold (px_step b) (fst (mask_entries mask q)) mem in
    if snd (mask_entries mask q) then Ok mem else UB.
  Proof.
    intros b. induction n as [|n IH]; intros mask L q mem.
    { destruct mask; [reflexivity|simpl in L; lia]. }
    destruct mask as [|m mask']; [reflexivity|]. cbn [mask_loop mask_entries].
    destruct (m =? 0).
    - destruct mask' as [|k mask'']; [reflexivity|]. destruct (k =? 0); [reflexivity|].
      apply IH. simpl in L. lia.
    - destruct (mask_entries mask' (q + 4)) as (l, t) eqn:E. cbn [fst snd ofold].
      destruct (px_step b mem (q, m)); cbn [obind]; auto.
      rewrite IH by (simpl in L; lia). rewrite E. reflexivity.
  Qed.

  Lemma stamp_steps_ok : forall b mask mem, steps (list Z) (stamp_steps b mask) mem = stamp b mask mem.
  Proof.
    intros b mask mem. unfold stamp. change (mask_loop _ mask 0 mem) with (mask_loop (fun mem q m => px_step b mem (q, m)) mask 0 mem).
    rewrite (entries_loop b (length mask)) by lia. unfold stamp_steps, steps.
    destruct (mask_entries mask 0) as (l, t). cbn [fst snd]. rewrite ofold_app, ofold_map.
    change (ofold (fun s a => _) l mem) with (ofold (px_step b) l mem).
    destruct (ofold (px_step b) l mem); cbn [obind]; auto. destruct t; reflexivity.
  Qed.

  (** the small steps add up to process_op *)
  Lemma op_steps_ok : forall t o mem, apply op (list Z) op_steps t mem o = process_op t o mem.
  Proof.
    intros t o mem. unfold apply, Dab.op_steps, Dab.process_op. destruct (op_mask t o) as [mask| |]; [|reflexivity|reflexivity].
    cbn [obind]. revert mem. induction (modes o) as [|b ms IH]; intros mem; [reflexivity|].
    cbn [flat_map ofold]. unfold steps in *. rewrite ofold_app.
    destruct b as [b| |]; [|reflexivity|reflexivity]. cbn [obind].
    change (ofold _ (stamp_steps b mask) mem) with (steps (list Z) (stamp_steps b mask) mem). rewrite stamp_steps_ok.
    destruct (stamp b mask mem); cbn [obind]; auto.
  Qed.

  (** *** Seen from a pixel *)
  (** all blend modes of an operation, with mask value [m] *)
  Definition blend_all (o : op) (m : Z) (p : pixel) : outcome pixel :=
    if m =? 0 then Ok p else ofold (fun p b => let* b := b in b m p) (modes o) p.

  Definition tile_ok (mem : list Z) : Prop := Z.of_nat (length mem) = 16384.

  Lemma process_op_px : forall t o mem mem', tile_ok mem -> process_op t o mem = Ok mem' ->
    tile_ok mem' /\
    exists V x0 y0 x1 y1,
      let x := fsub (o_x o) (f_of_Z (64 * fst t)) in
      let y := fsub (o_y o) (f_of_Z (64 * snd t)) in
      dab_box x y (o_radius o) = Ok (x0, y0, x1, y1) /\
      (forall i j, V i j <> 0 -> 0 <= i <= 63 /\ 0 <= j <= 63 /\ x0 <= i <= x1 /\ y0 <= j <= y1) /\
      (forall i j, x0 <= i <= x1 -> y0 <= j <= y1 ->
         mask_value trig x y (o_radius o) (clampf (o_hard o) f0 f1) (o_soft o) (o_aspect o) (o_angle o) i j = Ok (V i j)) /\
      forall i j, 0 <= i <= 63 -> 0 <= j <= 63 -> blend_all o (V i j) (pixel_at mem i j) = Ok (pixel_at mem' i j).
  Proof.
    intros t o mem mem' L H. unfold Dab.process_op in H. apply obind_ok in H. destruct H as (mask & E & H).
    unfold Dab.op_mask in E. apply obind_ok in E. destruct E as (ox & Eox & E). apply obind_ok in E. destruct E as (oy & Eoy & E).
    assert (forall z w, int_val z = Ok w -> w = z) as IV.
    { intros z w. unfold int_val. destruct (Base.in_int z); congruence. }
    apply IV in Eox, Eoy. unfold TILE in *. rewrite (Z.mul_comm (fst t)) in Eox. rewrite (Z.mul_comm (snd t)) in Eoy. subst ox oy.
    pose proof (C10_stamp_exact _ _ _ _ _ _ _ _ _ E) as (_ & _ & V & x0 & y0 & x1 & y1 & B & Z & Vals & P).
    assert (tile_ok mem' /\ forall i j, 0 <= i <= 63 -> 0 <= j <= 63 -> blend_all o (V i j) (pixel_at mem i j) = Ok (pixel_at mem' i j)) as (L' & K).
    { unfold blend_all. clear B Z Vals E. revert mem L H. induction (modes o) as [|b ms IH]; intros mem L H.
      - cbn [ofold] in *. injection H as ->. split; auto. intros. destruct (_ =? 0); auto.
      - cbn [ofold] in H. apply obind_ok in H. destruct H as (mem1 & E & H).
        destruct b as [b| |]; try discriminate. cbn [obind] in E.
        destruct (P b [] mem L) as (P1 & _). rewrite app_nil_r in P1. destruct (P1 _ E) as (L1 & P2).
        destruct (IH mem1 L1 H) as (L' & IH'). split; auto. intros i j Hi Hj.
        destruct (P2 i j Hi Hj) as (Q1 & Q2). specialize (IH' i j Hi Hj). cbn [ofold obind].
        destruct (Z.eqb_spec (V i j) 0) as [V0|V1].
        + rewrite <- IH'. rewrite Q1 by exact V0. reflexivity.
        + rewrite Q2 by exact V1. exact IH'. }
    split; auto. exists V, x0, y0, x1, y1. cbv zeta. auto.
  Qed.

  (** the dabs for which the arithmetic is well behaved *)
  Record op_ok (o : op) : Prop := {
    oo_dab : dab_ok trig (o_x o) (o_y o) (o_radius o) (o_hard o) (o_soft o) (o_aspect o) (o_angle o);
    oo_r : (b2r (o_radius o) <= 65536)%R }.

  (** the effect of the operation on pixel (X, Y) of the plane *)
  Definition paint_op (o : op) (X Y : Z) (p : pixel) : outcome pixel :=
    let* m := mask_value trig (o_x o) (o_y o) (o_radius o) (clampf (o_hard o) f0 f1) (o_soft o) (o_aspect o) (o_angle o) X Y in
    blend_all o m p.

  Definition op_tiles (o : op) : outcome (list tile) := dab_tiles (o_x o) (o_y o) (o_radius o).

  (** the position relative to the tile is computed without rounding *)
  Definition op_exact (o : op) (t : tile) : Prop :=
    b2r (fsub (o_x o) (f_of_Z (64 * fst t))) = (b2r (o_x o) - IZR (64 * fst t))%R /\
    b2r (fsub (o_y o) (f_of_Z (64 * snd t))) = (b2r (o_y o) - IZR (64 * snd t))%R.

  Lemma tile_near : forall v r t, bd v 20 -> fin r -> (/ 16 <= b2r r <= 65536)%R ->
    lo_px v r / 64 <= t <= hi_px v r / 64 -> (Rabs (b2r v - IZR (64 * t)) <= 70000)%R.
  Proof.
    intros v r t Bv Fr Hr H. destruct (edge_vals v r Bv Fr Hr) as (_ & _ & E1 & E2).
    apply Rabs_le_inv in E1, E2.
    pose proof (Zfloor_lb (b2r (fsub v (fadd r f1)))) as A1. pose proof (Zfloor_ub (b2r (fsub v (fadd r f1)))) as A2.
    pose proof (Zfloor_lb (b2r (fadd v (fadd r f1)))) as A3.
    fold (lo_px v r) in A1, A2. fold (hi_px v r) in A3.
    assert (lo_px v r - 63 <= 64 * t <= hi_px v r) as (K1 & K2).
    { pose proof (Z.div_mod (lo_px v r) 64). pose proof (Z.mod_pos_bound (lo_px v r) 64).
      pose proof (Z.div_mod (hi_px v r) 64). pose proof (Z.mod_pos_bound (hi_px v r) 64). lia. }
    apply IZR_le in K1, K2. rewrite minus_IZR in K1. apply Rabs_le. lra.
  Qed.

  Lemma op_here : forall o t mem mem' ts, op_ok o -> op_tiles o = Ok ts -> In t ts -> op_exact o t ->
    tile_ok mem -> process_op t o mem = Ok mem' ->
    tile_ok mem' /\
    forall X Y, X / 64 = fst t -> Y / 64 = snd t -> Z.abs X <= 2097152 -> Z.abs Y <= 2097152 ->
      paint_op o X Y (pixel_at mem (X mod 64) (Y mod 64)) = Ok (pixel_at mem' (X mod 64) (Y mod 64)).
  Proof.
    intros o t mem mem' ts [D R] ET It (Ex & Ey) L H. destruct (process_op_px t o mem mem' L H) as (L' & V & x0 & y0 & x1 & y1 & B & Z & Vals & P).
    cbv zeta in *. split; [exact L'|]. intros X Y HX HY BX BY.
    pose proof D as [Dx Dy (Fr & Hr) Dh Ds Da Dt].
    assert (Hr' : (/ 16 <= b2r (o_radius o) <= 65536)%R) by lra.
    destruct (dab_tiles_ok _ _ _ Dx Dy Fr Hr') as (ts' & ET' & Mem). unfold op_tiles in ET. rewrite ET' in ET. injection ET as ->.
    apply Mem in It. destruct It as (Itx & Ity).
    pose proof (tile_near _ _ _ Dx Fr Hr' Itx) as Nx. pose proof (tile_near _ _ _ Dy Fr Hr' Ity) as Ny.
    assert (EX : X = 64 * fst t + X mod 64) by (rewrite <- HX; apply Z.div_mod; lia).
    assert (EY : Y = 64 * snd t + Y mod 64) by (rewrite <- HY; apply Z.div_mod; lia).
    pose proof (Z.mod_pos_bound X 64 ltac:(lia)) as MX. pose proof (Z.mod_pos_bound Y 64 ltac:(lia)) as MY.
    set (i := X mod 64) in *. set (j := Y mod 64) in *. clearbody i j. subst X Y.
    assert (V_is : mask_value trig (o_x o) (o_y o) (o_radius o) (clampf (o_hard o) f0 f1) (o_soft o) (o_aspect o) (o_angle o)
                     (64 * fst t + i) (64 * snd t + j) = Ok (V i j)).
    { rewrite <- mask_shift; auto; try lia; try (eexists; reflexivity).
      set (x := fsub (o_x o) (f_of_Z (64 * fst t))) in *. set (y := fsub (o_y o) (f_of_Z (64 * snd t))) in *.
      assert (Bf : forall v q, bd v 20 -> Z.abs q <= 2097152 + 63 ->
         (Rabs (b2r v - IZR q) <= 70000)%R -> b2r (fsub v (f_of_Z q)) = (b2r v - IZR q)%R -> bd (fsub v (f_of_Z q)) 20).
      { intros v q (Fv & Hv) Hq Hn E. destruct (f_of_Z_exact q) as (Eq & Fq); [lia|].
        destruct (fsub_spec v (f_of_Z q) Fv Fq) as (_ & F).
        { rewrite Eq. apply Rle_trans with (bpow radix2 20); [change (bpow radix2 20) with 1048576%R; lra|apply bpow_le; lia]. }
        split; auto. rewrite E. change (bpow radix2 20) with 1048576%R. lra. }
      assert (Bx : bd x 20) by (apply Bf; auto; lia). assert (By : bd y 20) by (apply Bf; auto; lia).
      destruct (dab_box_ok x y (o_radius o) Bx By Fr Hr) as (X0 & Y0 & X1 & Y1 & EB & P1 & P2 & P3 & P4 & _).
      rewrite B in EB. injection EB as -> -> -> ->.
      destruct (Z_le_dec X0 i); [|].
      destruct (Z_le_dec i X1); [|].
      destruct (Z_le_dec Y0 j); [|].
      destruct (Z_le_dec j Y1); [apply Vals; lia|].
      all: assert (V i j = 0) as -> by (destruct (Z.eq_dec (V i j) 0) as [|NV]; auto; apply Z in NV; lia).
      all: apply mask_far; try lia; auto; [constructor; auto|].
      all: first [ left; eapply outside_far; eauto; lia | right; eapply outside_far; eauto; lia ]. }
    unfold paint_op. rewrite V_is. cbn [obind]. apply P; lia.
  Qed.

  Lemma op_away : forall o ts X Y p, op_ok o -> op_tiles o = Ok ts -> ~ In (X / 64, Y / 64) ts ->
    Z.abs X <= 2097152 -> Z.abs Y <= 2097152 -> paint_op o X Y p = Ok p.
  Proof.
    intros o ts X Y p [D R] ET NI BX BY. pose proof D as [Dx Dy (Fr & Hr) Dh Ds Da Dt].
    assert (Hr' : (/ 16 <= b2r (o_radius o) <= 65536)%R) by lra.
    destruct (dab_tiles_ok _ _ _ Dx Dy Fr Hr') as (ts' & ET' & Mem). unfold op_tiles in ET. rewrite ET' in ET. injection ET as ->.
    rewrite Mem in NI. cbn [fst snd] in NI.
    assert (Div : forall v lo hi, ~ (lo / 64 <= v / 64 <= hi / 64) -> v < lo \/ hi < v).
    { intros v lo hi H. destruct (Z_lt_dec v lo); auto. destruct (Z_lt_dec hi v); auto. exfalso. apply H.
      split; apply Z.div_le_mono; lia. }
    unfold paint_op. rewrite mask_far; auto.
    destruct (Z_le_dec (lo_px (o_x o) (o_radius o) / 64) (X / 64)); [|left; apply lo_hi_far; auto; apply Div; lia].
    destruct (Z_le_dec (X / 64) (hi_px (o_x o) (o_radius o) / 64)); [|left; apply lo_hi_far; auto; apply Div; lia].
    right. apply lo_hi_far; auto. apply Div. lia.
  Qed.
End Ops.
