(** Sampling, continued: the mask and the centre pixel. *)
From Verif Require Import Base F32 F32Proofs Blend BlendProofs Queue QueueProofs Plumb PlumbProofs Mask MaskProofs OpaProofs RrProofs MaskFloatProofs FarProofs
  Dab DabProofs Sample SampleProofs SampleSpec SampleProofs2 SampleProofs3.
From Coq Require Import Reals Lra Psatz Permutation.
From Flocq Require Import Core.Core IEEE754.BinarySingleNaN.
From Verif Require Import P_Mask P_Sample SampleReturn.
Local Open Scope R_scope.

Section Flat.
  Variable trig : trig_oracle.
  Hypothesis T0 : trig f0 = (f1, f0).

  Lemma trig_flat : trig_ok (trig f0).
  Proof.
    rewrite T0. destruct f1_val as (V1 & F1). destruct f0_val as (V0 & F0). unfold trig_ok. cbn [fst snd].
    split; [apply bd_one|]. split; [apply bd_zero|]. rewrite V1, V0. rewrite Rmult_1_l, Rmult_0_l, Rplus_0_r, Rminus_diag_eq, Rabs_R0 by reflexivity. lra.
  Qed.
  Lemma aspect1 : (if flt f1 f1 then f1 else f1) = f1.
  Proof. destruct (flt f1 f1); reflexivity. Qed.

  Definition ctr (p : Z) (v : f32) : R := rnd32 (IZR p + / 2 - b2r v).

  Lemma rr_flat_big : forall x y r i j, bd x 20 -> bd y 20 -> fin r -> 3 <= b2r r <= 1048576 -> in_tile i j ->
    let oor := fdiv f1 (fmul r r) in
    fin (rr_at trig x y r f1 f0 i j) /\ 0 <= b2r oor /\
    b2r (rr_at trig x y r f1 f0 i j) = rnd32 (dist2 (ctr i x) (ctr j y) * b2r oor).
  Proof.
    intros x y r i j Bx By Fr Hr (Hi & Hj) oor.
    assert (E : rr_at trig x y r f1 f0 i j =
      fmul (calculate_r_sample (fsub (fadd (f_of_Z i) fhalf) x) (fsub (fadd (f_of_Z j) fhalf) y) f1 f0 f1) oor).
    { unfold rr_at. rewrite T0, aspect1. destruct (f_of_Z_exact 3) as (V3 & F3); [lia|]. fold f3 in V3, F3.
      rewrite flt_spec, V3 by auto. rewrite Rlt_bool_false by lra. reflexivity. }
    rewrite E. destruct (center_val i x) as (B1 & C1); [lia|auto|]. destruct (center_val j y) as (B2 & C2); [lia|auto|].
    destruct (flat_sample _ _ 23 B1 B2) as (F & V); [lia|]. rewrite C1, C2 in V. fold (ctr i x) (ctr j y) in V.
    destruct (oor_ok r Fr) as ((Fo & Bo) & No); [lra|]. fold oor in Fo, Bo, No. unfold nn in No.
    destruct (r_sample_ok (fsub (fadd (f_of_Z i) fhalf) x) (fsub (fadd (f_of_Z j) fhalf) y) f1 f0 f1 23 B1 B2) as (Bs & _);
      [apply bd_weak with 0%Z; [apply bd_one|lia]|apply bd_zero|apply bd_one|lia|].
    change (2 * 23 + 43)%Z with 89%Z in Bs.
    destruct (bd_mul _ oor 89 9 Bs (conj Fo Bo)) as (F' & _); [lia|].
    split; auto. split; auto.
    destruct (fmul_spec (calculate_r_sample (fsub (fadd (f_of_Z i) fhalf) x) (fsub (fadd (f_of_Z j) fhalf) y) f1 f0 f1) oor F Fo) as (EM & _).
    - rewrite Rabs_mult. apply Rle_trans with (bpow radix2 (89 + 9)); [|apply bpow_le; lia]. rewrite bpow_plus.
      apply Rmult_le_compat; auto; try apply Rabs_pos. apply Bs.
    - rewrite EM, V. reflexivity.
  Qed.

  Lemma ctr_mono : forall p q v, (p <= q)%Z -> ctr p v <= ctr q v.
  Proof. intros p q v H. apply rnd32_le. apply IZR_le in H. lra. Qed.

  Lemma flat_dab_ok : forall x y r, bd x 20 -> bd y 20 -> fin r -> 1 <= b2r r <= 1048576 ->
    dab_ok trig x y r fhalf fhalf f1 f0.
  Proof.
    intros x y r Bx By Fr Hr. destruct fhalf_val as (VH & FH). constructor; auto.
    - split; auto. lra.
    - split; auto. rewrite VH. apply Rle_trans with (bpow radix2 (-1)); [apply bpow_le; lia|simpl; lra].
    - split; auto. lra.
    - apply bd_weak with 0%Z; [apply bd_one|lia].
    - apply trig_flat.
  Qed.

  Lemma flat_mask : forall x y r, bd x 20 -> bd y 20 -> fin r -> 1 <= b2r r <= 1048576 ->
    exists mask, render_dab_mask trig x y r fhalf fhalf f1 f0 = Ok mask.
  Proof.
    intros x y r Bx By Fr Hr. pose proof (flat_dab_ok x y r Bx By Fr Hr) as D.
    destruct (Rle_lt_dec (b2r r) 22) as [S|L].
    { apply render_small_ok; auto. }
    destruct (dab_box_ok x y r Bx By Fr) as (X0 & Y0 & X1 & Y1 & E & _); [lra|].
    apply (render_no_gap_ok _ _ _ _ _ _ _ _ _ _ _ _ D E).
    set (x0 := Z.max X0 0) in *. set (y0 := Z.max Y0 0) in *. set (x1 := Z.min X1 63) in *. set (y1 := Z.min Y1 63) in *.
    rewrite clamp_half in *.
    set (opa := mask_value trig x y r fhalf fhalf f1 f0) in *.
    assert (NG : forall i j k row, (x0 <= i)%Z -> (i < j < k)%Z -> (k <= x1)%Z -> (y0 <= row <= y1)%Z ->
      opa i row <> Ok 0%Z -> opa k row <> Ok 0%Z -> opa j row <> Ok 0%Z).
    { intros i j k row Hi Hj Hk Hr' Ni Nk.
      assert (forall c, (x0 <= c <= x1)%Z -> in_tile c row) as IT by (intros c Hc; unfold in_tile, x0, x1, y0, y1 in *; lia).
      destruct (rr_flat_big x y r i row Bx By Fr) as (Fi & Po & Vi); [lra|apply IT; lia|].
      destruct (rr_flat_big x y r j row Bx By Fr) as (Fj & _ & Vj); [lra|apply IT; lia|].
      destruct (rr_flat_big x y r k row Bx By Fr) as (Fk & _ & Vk); [lra|apply IT; lia|].
      pose proof (ctr_mono i j x ltac:(lia)) as M1. pose proof (ctr_mono j k x ltac:(lia)) as M2.
      assert (0 <= b2r (rr_at trig x y r f1 f0 j row)) as Pj.
      { rewrite Vj. apply nonneg_rnd. apply Rmult_le_pos; auto. apply dist2_nonneg. }
      destruct (Rle_lt_dec 0 (ctr j x)) as [Pc|Pc].
      - revert Nk. unfold opa, mask_value. apply half_closer; auto. split; auto. rewrite Vj, Vk. apply rnd32_le.
        apply Rmult_le_compat_r; auto. apply dist2_mono; [|apply Rle_refl]. rewrite !Rabs_pos_eq by lra. lra.
      - revert Ni. unfold opa, mask_value. apply half_closer; auto. split; auto. rewrite Vj, Vi. apply rnd32_le.
        apply Rmult_le_compat_r; auto. apply dist2_mono; [|apply Rle_refl]. rewrite !Rabs_left1 by lra. lra. }
    assert (In_box : forall i row, box_vals opa x0 y0 x1 y1 i row <> 0%Z -> (x0 <= i <= x1 /\ y0 <= row <= y1)%Z).
    { intros i row NZ.
      destruct (Z_le_dec x0 i); [|exfalso; apply NZ; apply box_vals_out; lia].
      destruct (Z_le_dec i x1); [|exfalso; apply NZ; apply box_vals_out; lia].
      destruct (Z_le_dec y0 row); [|exfalso; apply NZ; apply box_vals_out; lia].
      destruct (Z_le_dec row y1); [|exfalso; apply NZ; apply box_vals_out; lia]. lia. }
    intros i j k row Ni Nk Hj.
    destruct (In_box _ _ Ni) as (B1 & B2). destruct (In_box _ _ Nk) as (B3 & _).
    assert (forall p, (x0 <= p <= x1)%Z -> box_vals opa x0 y0 x1 y1 p row <> 0%Z <-> opa p row <> Ok 0%Z) as K.
    { intros p Hp. destruct (mask_value_ok _ _ _ _ _ _ _ _ p row _ _ _ _ D E Hp B2) as (v & Ev & _). rewrite clamp_half in Ev. fold opa in Ev.
      rewrite box_vals_in by auto. rewrite Ev. split; congruence. }
    apply K; [lia|]. apply (NG i j k row); try lia; apply K; auto; lia.
  Qed.

  (** ** The centre pixel *)
  Lemma oor_le1 : forall r, fin r -> 1 <= b2r r <= 1048576 -> fin (fdiv f1 (fmul r r)) /\ 0 <= b2r (fdiv f1 (fmul r r)) <= 1.
  Proof.
    intros r F H. destruct f1_val as (V1 & F1).
    assert (1 <= b2r r * b2r r <= bpow radix2 40) as S.
    { split; [nra|]. apply Rle_trans with (1048576 * 1048576); [apply Rmult_le_compat; lra|simpl; lra]. }
    destruct (fmul_spec r r F F) as (E & G).
    { rewrite Rabs_pos_eq by lra. eapply Rle_trans; [apply S|apply bpow_le; lia]. }
    assert (1 <= rnd32 (b2r r * b2r r)) as L by (apply rnd32_ge_r; [apply (rep32_IZR 1); lia|lra]).
    assert (0 <= 1 / rnd32 (b2r r * b2r r) <= 1) as Q by (split; [apply div_pos; lra|apply div_le; lra]).
    pose proof bpow127_big.
    destruct (fdiv_spec f1 (fmul r r) F1) as (Ed & Fd); [lra|rewrite V1, E, Rabs_pos_eq by tauto; lra|].
    rewrite V1, E in Ed. split; auto. rewrite Ed. split; [apply nonneg_rnd; tauto|apply rnd_le1; tauto].
  Qed.

  Definition mid (v : f32) : Z := Z.min 63 (Zfloor (b2r v)).
  Lemma mid_ok : forall v : f32, 0 <= b2r v <= 64 -> (0 <= mid v <= 63)%Z /\ IZR (mid v) <= b2r v <= IZR (mid v) + 1.
  Proof.
    intros v H. pose proof (Zfloor_lb (b2r v)) as A. pose proof (Zfloor_ub (b2r v)) as B. unfold mid.
    assert (0 <= Zfloor (b2r v))%Z by (apply Zfloor_lub; simpl; lra).
    destruct (Z.min_spec 63 (Zfloor (b2r v))) as [(C & ->)|(C & ->)].
    - assert (IZR 64 <= IZR (Zfloor (b2r v))) by (apply IZR_le; lia). split; [lia|]. lra.
    - split; [lia|]. lra.
  Qed.

  Lemma mid_in_box : forall (v r : f32) lo hi, bd v 20 -> 0 <= b2r v <= 64 -> fin r -> 1 <= b2r r <= 1048576 ->
    IZR lo <= b2r (fsub v (fadd r f1)) < IZR lo + 1 -> IZR hi <= b2r (fadd v (fadd r f1)) < IZR hi + 1 ->
    (Z.max lo 0 <= mid v <= Z.min hi 63)%Z.
  Proof.
    intros v r lo hi Bv Hv Fr Hr Lo Hi. destruct f1_val as (V1 & F1). destruct (mid_ok v Hv) as (M1 & M2).
    pose proof bpow127_big.
    destruct (fadd_spec r f1 Fr F1) as (E & F). { rewrite V1, Rabs_pos_eq by lra. lra. }
    assert (2 <= b2r (fadd r f1) <= 1048577) as Bf.
    { rewrite E, V1. split; [apply rnd32_ge_r; [apply (rep32_IZR 2); lia|lra]|apply rnd32_le_r; [apply (rep32_IZR 1048577); lia|lra]]. }
    destruct (fsub_spec v (fadd r f1) (proj1 Bv) F) as (E1 & _). { apply Rabs_le. lra. }
    destruct (fadd_spec v (fadd r f1) (proj1 Bv) F) as (E2 & _). { rewrite Rabs_pos_eq by lra. lra. }
    assert (b2r (fsub v (fadd r f1)) <= b2r v) as L1 by (rewrite E1; apply rnd32_le_r; [apply rep32_b2r|lra]).
    assert (b2r (fsub v (fadd r f1)) <= 63) as L2 by (rewrite E1; apply rnd32_le_r; [apply (rep32_IZR 63); lia|lra]).
    assert (b2r v <= b2r (fadd v (fadd r f1))) as L3 by (rewrite E2; apply rnd32_ge_r; [apply rep32_b2r|lra]).
    assert (lo <= Zfloor (b2r v))%Z by (apply Zfloor_lub; lra).
    assert (lo <= 63)%Z by (apply le_IZR; lra).
    assert (Zfloor (b2r v) <= hi)%Z.
    { apply Z.lt_succ_r. apply lt_IZR. rewrite succ_IZR. pose proof (Zfloor_lb (b2r v)). lra. }
    unfold mid in *. lia.
  Qed.

  Lemma ctr_small : forall v p, IZR p <= b2r v <= IZR p + 1 -> Rabs (ctr p v) <= / 2.
  Proof.
    intros v p H. unfold ctr. change (/ 2) with (bpow radix2 (-1)) at 2. apply rnd_bpow; [lia|]. simpl. apply Rabs_le. lra.
  Qed.
  Lemma dist2_small : forall u v, Rabs u <= / 2 -> Rabs v <= / 2 -> dist2 u v <= / 2.
  Proof.
    intros u v Hu Hv. assert (forall z, Rabs z <= / 2 -> z * z <= / 4) as Q.
    { intros z Hz. apply Rabs_le_inv in Hz. nra. }
    assert (forall z, Rabs z <= / 2 -> rnd32 (z * z) <= / 4) as Q'.
    { intros z Hz. apply rnd32_le_r; [replace (/ 4) with (bpow radix2 (-2)) by (simpl; lra); apply rep32_bpow; lia|apply Q; auto]. }
    unfold dist2. apply rnd32_le_r; [change (/ 2) with (bpow radix2 (-1)); apply rep32_bpow; lia|].
    pose proof (Q' u Hu). pose proof (Q' v Hv). lra.
  Qed.

  Lemma centre_big : forall x y r, bd x 20 -> bd y 20 -> 0 <= b2r x <= 64 -> 0 <= b2r y <= 64 -> fin r -> 3 <= b2r r <= 1048576 ->
    let rr := rr_at trig x y r f1 f0 (mid x) (mid y) in fin rr /\ 0 <= b2r rr <= 3 / 4.
  Proof.
    intros x y r Bx By Hx Hy Fr Hr rr. destruct (mid_ok x Hx) as (Mx & Mx'). destruct (mid_ok y Hy) as (My & My').
    destruct (rr_flat_big x y r (mid x) (mid y) Bx By Fr Hr) as (F & Po & V); [split; auto|]. fold rr in F, V.
    destruct (oor_le1 r Fr) as (_ & Ho); [lra|].
    pose proof (dist2_small _ _ (ctr_small x _ Mx') (ctr_small y _ My')) as D.
    pose proof (dist2_nonneg (ctr (mid x) x) (ctr (mid y) y)) as D0.
    split; auto. rewrite V. split.
    - apply nonneg_rnd. apply Rmult_le_pos; lra.
    - apply Rle_trans with (/ 2); [|lra]. apply rnd32_le_r; [change (/ 2) with (bpow radix2 (-1)); apply rep32_bpow; lia|].
      apply Rle_trans with (/ 2 * 1); [apply Rmult_le_compat; lra|lra].
  Qed.

  Lemma rep_half : rep32 (/ 2). Proof. change (/ 2) with (bpow radix2 (-1)). apply rep32_bpow. lia. Qed.
  Lemma rep_quarter : rep32 (/ 4). Proof. change (/ 4) with (bpow radix2 (-2)). apply rep32_bpow. lia. Qed.
  Lemma rep_34 : rep32 (3 / 4). Proof. replace (3 / 4) with (IZR 3 * bpow radix2 (-2)) by (simpl; lra). apply rep32_scaled; lia. Qed.

  Lemma tail_small : forall near far aa r_far, fin near -> 0 <= b2r near <= / 2 -> fin far -> 0 <= b2r far <= 1 ->
    let v := if flt r_far aa then fmul (fadd far near) fhalf
             else fsub f1 (fdiv (fsub f1 near) (fadd f1 (fsub far near))) in
    fin v /\ 0 <= b2r v <= 3 / 4.
  Proof.
    intros near far aa r_far Fn Hn Ff Hf v. pose proof bpow127_big.
    destruct (aa_tail_ok near far aa r_far Fn) as [((Fv & _) & Nv)|(N1 & _)]; [lra| |exact (proj1 Hf)| |lra].
    { split; auto. rewrite Rabs_pos_eq by lra. apply Rle_trans with (bpow radix2 0); [simpl; lra|apply bpow_le; lia]. }
    fold v in Fv, Nv. split; auto. split; [exact Nv|]. unfold v. clear v Fv Nv. destruct f1_val as (V1 & F1). destruct fhalf_val as (VH & FH).
    destruct (flt r_far aa).
    - destruct (fadd_spec far near Ff Fn) as (E & F). { rewrite Rabs_pos_eq by lra. lra. }
      assert (0 <= b2r (fadd far near) <= 3 / 2) as B.
      { rewrite E. split; [apply nonneg_rnd; lra|]. apply rnd32_le_r; [|lra]. replace (3 / 2) with (IZR 3 * bpow radix2 (-1)) by (simpl; lra). apply rep32_scaled; lia. }
      destruct (fmul_spec (fadd far near) fhalf F FH) as (E2 & _). { rewrite VH, Rabs_pos_eq by lra. lra. }
      rewrite E2, VH. apply rnd32_le_r; [apply rep_34|lra].
    - destruct (fsub_spec f1 near F1 Fn) as (Ev & Fv). { rewrite V1, Rabs_pos_eq by lra. lra. }
      destruct (fsub_spec far near Ff Fn) as (Ed & Fd). { apply Rabs_le. lra. }
      rewrite V1 in Ev.
      assert (/ 2 <= b2r (fsub f1 near) <= 1) as B1 by (rewrite Ev; split; [apply rnd32_ge_r; [apply rep_half|lra]|apply rnd_le1; lra]).
      assert (- / 2 <= b2r (fsub far near) <= 1) as B2.
      { rewrite Ed. split; [apply rnd32_ge_r; [apply rep32_opp, rep_half|lra]|apply rnd_le1; lra]. }
      destruct (fadd_spec f1 (fsub far near) F1 Fd) as (E2 & F2). { rewrite V1, Rabs_pos_eq by lra. lra. }
      rewrite V1 in E2.
      assert (/ 2 <= b2r (fadd f1 (fsub far near)) <= 2) as B3.
      { rewrite E2. split; [apply rnd32_ge_r; [apply rep_half|lra]|apply rnd32_le_r; [apply (rep32_IZR 2); lia|lra]]. }
      assert (/ 4 <= b2r (fsub f1 near) / b2r (fadd f1 (fsub far near)) <= 2) as Q.
      { split.
        - apply Rmult_le_reg_r with (b2r (fadd f1 (fsub far near))); [lra|]. unfold Rdiv. rewrite Rmult_assoc, Rinv_l by lra. lra.
        - apply div_le; lra. }
      destruct (fdiv_spec (fsub f1 near) (fadd f1 (fsub far near)) Fv) as (Eq & Fq); [lra|rewrite Rabs_pos_eq by lra; lra|].
      assert (/ 4 <= b2r (fdiv (fsub f1 near) (fadd f1 (fsub far near))) <= 2) as B4.
      { rewrite Eq. split; [apply rnd32_ge_r; [apply rep_quarter|lra]|apply rnd32_le_r; [apply (rep32_IZR 2); lia|lra]]. }
      destruct (fsub_spec f1 (fdiv (fsub f1 near) (fadd f1 (fsub far near))) F1 Fq) as (Er & _). { rewrite V1. apply Rabs_le. lra. }
      rewrite Er, V1. apply rnd32_le_r; [apply rep_34|lra].
  Qed.

  Lemma rad_val : fin rad_area_1 /\ / 2 <= b2r rad_area_1 <= 19 / 32.
  Proof.
    destruct (lit24 rad_area_1 9465530%positive _ ltac:(vm_compute; reflexivity) eq_refl) as (E & F). split; auto. rewrite E. lra.
  Qed.

  Lemma edges : forall (v : f32) p, bd v 20 -> (0 <= p <= 63)%Z -> IZR p <= b2r v <= IZR p + 1 ->
    let right := fsub v (f_of_Z p) in
    (fin right /\ 0 <= b2r right <= 1) /\
    (fin (fsub right fhalf) /\ - / 2 <= b2r (fsub right fhalf) <= / 2) /\
    (fin (fsub right f1) /\ -1 <= b2r (fsub right f1) <= 0) /\
    b2r (fsub right f1) <= b2r (fsub right fhalf) <= b2r right.
  Proof.
    intros v p Bv Hp H right. destruct (f_of_Z_exact p) as (Vp & Fp); [lia|]. destruct f1_val as (V1 & F1). destruct fhalf_val as (VH & FH).
    pose proof bpow127_big.
    destruct (fsub_spec v (f_of_Z p) (proj1 Bv) Fp) as (E & F). { rewrite Vp, Rabs_pos_eq by lra. lra. }
    fold right in E, F. rewrite Vp in E.
    assert (0 <= b2r right <= 1) as B by (rewrite E; split; [apply nonneg_rnd; lra|apply rnd_le1; lra]).
    destruct (fsub_spec right fhalf F FH) as (E1 & F1'). { rewrite VH. apply Rabs_le. lra. }
    destruct (fsub_spec right f1 F F1) as (E2 & F2'). { rewrite V1. apply Rabs_le. lra. }
    rewrite VH in E1. rewrite V1 in E2.
    split; [auto|]. split; [split; auto; rewrite E1; split; [apply rnd32_ge_r; [apply rep32_opp, rep_half|lra]|apply rnd32_le_r; [apply rep_half|lra]]|].
    split; [split; auto; rewrite E2; split; [apply rnd32_ge_r; [apply (rep32_IZR (-1)); lia|lra]|apply rnd32_le_r; [apply rep32_0|lra]]|].
    rewrite E1, E2. split; [apply rnd32_le; lra|]. apply rnd32_le_r; [apply rep32_b2r|lra].
  Qed.

  Lemma clamp_id : forall v lo hi : f32, fin v -> fin lo -> fin hi -> b2r lo <= b2r v <= b2r hi -> clampf v lo hi = v.
  Proof.
    intros v lo hi Fv Fl Fh H. unfold clampf. rewrite !flt_spec by auto. rewrite !Rlt_bool_false by lra. reflexivity.
  Qed.

  Lemma sq_bound : forall z b, rep32 b -> z * z <= b -> rnd32 (z * z) <= b.
  Proof. intros. apply rnd32_le_r; auto. Qed.

  Lemma centre_small : forall x y r, bd x 20 -> bd y 20 -> 0 <= b2r x <= 64 -> 0 <= b2r y <= 64 -> fin r -> 1 <= b2r r < 3 ->
    let rr := rr_at trig x y r f1 f0 (mid x) (mid y) in fin rr /\ 0 <= b2r rr <= 3 / 4.
  Proof.
    intros x y r Bx By Hx Hy Fr Hr rr. destruct (mid_ok x Hx) as (Mx & Mx'). destruct (mid_ok y Hy) as (My & My').
    destruct f1_val as (V1 & F1). destruct f0_val as (V0 & F0). destruct rad_val as (FR & VR). pose proof bpow127_big.
    destruct (oor_le1 r Fr) as (Fo & Ho); [lra|].
    unfold rr, rr_at. clear rr. rewrite T0, aspect1.
    destruct (f_of_Z_exact 3) as (V3 & F3); [lia|]. fold f3 in V3, F3. rewrite flt_spec, V3 by auto. rewrite Rlt_bool_true by lra.
    set (aa := fmul _ (fdiv _ f1)). set (oor := fdiv f1 (fmul r r)) in *. clearbody aa.
    unfold calculate_rr_antialiased. cbv zeta.
    destruct (edges x (mid x) Bx Mx Mx') as ((Fxr & Bxr) & (Fxc & Bxc) & (Fxl & Bxl) & Ox).
    destruct (edges y (mid y) By My My') as ((Fyr & Byr) & (Fyc & Byc) & (Fyl & Byl) & Oy).
    set (xr := fsub x (f_of_Z (mid x))) in *. set (yr := fsub y (f_of_Z (mid y))) in *.
    set (xc := fsub xr fhalf) in *. set (yc := fsub yr fhalf) in *. set (xl := fsub xr f1) in *. set (yl := fsub yr f1) in *.
    clearbody xr yr xc yc xl yl.
    assert (bd xc 0) as Bdx by (split; auto; simpl; apply Rabs_le; lra). assert (bd yc 0) as Bdy by (split; auto; simpl; apply Rabs_le; lra).
    (* the nearest point: (nx, ny) with |nx| <= 1/2 and ny = 0 *)
    assert (NP : exists nx ny near : f32, (if flt xl f0 && flt f0 xr && flt yl f0 && flt f0 yr then (f0, f0, f0)
       else let '(nx, ny) := closest_point_to_line f1 f0 xc yc in
            (clampf nx xl xr, clampf ny yl yr, fmul (calculate_r_sample (clampf nx xl xr) (clampf ny yl yr) f1 f0 f1) oor)) = (nx, ny, near) /\
       fin nx /\ Rabs (b2r nx) <= / 2 /\ fin ny /\ b2r ny = 0 /\ fin near /\ 0 <= b2r near <= / 2).
    { destruct (flt xl f0 && flt f0 xr && flt yl f0 && flt f0 yr).
      - exists f0, f0, f0. split; auto. rewrite V0, Rabs_R0. repeat split; auto; lra.
      - unfold closest_point_to_line.
        assert (fadd (fmul f1 f1) (fmul f0 f0) = f1) as -> by (apply B2SF_inj; vm_compute; reflexivity).
        destruct (times1 xc 0 Bdx) as (F2 & E2); [lia|]. destruct (times0 yc 0 Bdy) as (F3' & E3); [lia|].
        destruct (fadd_spec _ _ F2 F3') as (E4 & F4). { rewrite E2, E3, Rplus_0_r. apply Rabs_le. lra. }
        rewrite E2, E3, Rplus_0_r, rnd32_id in E4 by apply rep32_b2r.
        destruct (fdiv_spec _ f1 F4) as (E5 & F5); [rewrite V1; lra|rewrite V1, E4; unfold Rdiv; rewrite Rinv_1, Rmult_1_r; apply Rabs_le; lra|].
        rewrite V1, E4 in E5. unfold Rdiv in E5. rewrite Rinv_1, Rmult_1_r, rnd32_id in E5 by apply rep32_b2r.
        set (t := fdiv _ f1) in *. clearbody t.
        destruct (fmul_spec f1 t F1 F5) as (E6 & F6). { rewrite V1, Rmult_1_l, E5. apply Rabs_le. lra. }
        rewrite V1, Rmult_1_l, E5, rnd32_id in E6 by apply rep32_b2r.
        destruct (fmul_spec f0 t F0 F5) as (E7 & F7). { rewrite V0, Rmult_0_l, Rabs_R0. lra. }
        rewrite V0, Rmult_0_l, rnd32_0 in E7.
        rewrite (clamp_id (fmul f1 t) xl xr) by (auto; lra). rewrite (clamp_id (fmul f0 t) yl yr) by (auto; lra).
        eexists _, _, _. split; [reflexivity|]. split; auto. split; [rewrite E6; apply Rabs_le; lra|]. split; auto. split; auto.
        destruct (flat_sample (fmul f1 t) (fmul f0 t) 0) as (F8 & E8); [split; auto; rewrite E6; simpl; apply Rabs_le; lra|split; auto; rewrite E7, Rabs_R0; simpl; lra|lia|].
        rewrite E6, E7 in E8.
        assert (dist2 (b2r xc) 0 <= / 2) as D by (apply dist2_small; [apply Rabs_le; lra|rewrite Rabs_R0; lra]).
        pose proof (dist2_nonneg (b2r xc) 0) as D0.
        destruct (fmul_spec _ oor F8 Fo) as (E9 & F9). { rewrite E8, Rabs_pos_eq by (apply Rmult_le_pos; lra). apply Rle_trans with (/ 2 * 1); [apply Rmult_le_compat; lra|lra]. }
        split; auto. rewrite E9, E8. split; [apply nonneg_rnd, Rmult_le_pos; lra|]. apply rnd32_le_r; [apply rep_half|].
        apply Rle_trans with (/ 2 * 1); [apply Rmult_le_compat; lra|lra]. }
    destruct NP as (nx & ny & near & EN & Fnx & Bnx & Fny & Vny & Fne & Bne).
    rewrite EN. clear EN.
    rewrite flt_spec, V1 by auto. rewrite Rlt_bool_false by lra.
    (* the farthest point *)
    destruct (fmul_spec f0 rad_area_1 F0 FR) as (E1 & G1). { rewrite V0, Rmult_0_l, Rabs_R0. lra. }
    rewrite V0, Rmult_0_l, rnd32_0 in E1.
    destruct (fmul_spec f1 rad_area_1 F1 FR) as (E2 & G2). { rewrite V1, Rmult_1_l. apply Rabs_le. lra. }
    rewrite V1, Rmult_1_l, rnd32_id in E2 by apply rep32_b2r.
    assert (FF : forall fx fy : f32, fin fx -> Rabs (b2r fx) <= / 2 -> fin fy -> Rabs (b2r fy) = b2r rad_area_1 ->
      let r_far := calculate_r_sample fx fy f1 f0 f1 in let rr_far := fmul r_far oor in
      fin (if flt r_far aa then fmul (fadd rr_far near) fhalf else fsub f1 (fdiv (fsub f1 near) (fadd f1 (fsub rr_far near)))) /\
      0 <= b2r (if flt r_far aa then fmul (fadd rr_far near) fhalf else fsub f1 (fdiv (fsub f1 near) (fadd f1 (fsub rr_far near)))) <= 3 / 4).
    { intros fx fy Ffx Bfx Ffy Vfy r_far rr_far.
      destruct (flat_sample fx fy 0) as (F8 & E8); [split; auto; simpl; lra|split; auto; simpl; lra|lia|]. fold r_far in F8, E8.
      assert (0 <= dist2 (b2r fx) (b2r fy) <= 1) as D.
      { split; [apply dist2_nonneg|]. unfold dist2. apply rnd_le1.
        assert (b2r fx * b2r fx <= / 4) as A1 by (apply Rabs_le_inv in Bfx; nra).
        assert (b2r fy * b2r fy <= 3 / 4) as A2.
        { replace (b2r fy * b2r fy) with (Rabs (b2r fy) * Rabs (b2r fy)) by (rewrite <- Rabs_mult; apply Rabs_pos_eq; nra). rewrite Vfy. nra. }
        pose proof (sq_bound _ _ rep_quarter A1). pose proof (sq_bound _ _ rep_34 A2). lra. }
      destruct (fmul_spec r_far oor F8 Fo) as (E9 & F9). { rewrite E8, Rabs_pos_eq by (apply Rmult_le_pos; lra). apply Rle_trans with (1 * 1); [apply Rmult_le_compat; lra|lra]. }
      fold rr_far in E9, F9. apply tail_small; auto. rewrite E9, E8. split; [apply nonneg_rnd, Rmult_le_pos; lra|]. apply rnd_le1.
      apply Rle_trans with (1 * 1); [apply Rmult_le_compat; lra|lra]. }
    destruct (fadd_spec nx _ Fnx G1) as (A1 & A2). { rewrite E1, Rplus_0_r. apply Rabs_le_inv in Bnx. apply Rabs_le. lra. }
    destruct (fsub_spec nx _ Fnx G1) as (S1 & S2). { rewrite E1, Rminus_0_r. apply Rabs_le_inv in Bnx. apply Rabs_le. lra. }
    destruct (fadd_spec ny _ Fny G2) as (A3 & A4). { rewrite E2, Vny, Rplus_0_l. apply Rabs_le. lra. }
    destruct (fsub_spec ny _ Fny G2) as (S3 & S4). { rewrite E2, Vny, Rminus_0_l, Rabs_Ropp. apply Rabs_le. lra. }
    rewrite E1, Rplus_0_r, rnd32_id in A1 by apply rep32_b2r. rewrite E1, Rminus_0_r, rnd32_id in S1 by apply rep32_b2r.
    rewrite E2, Vny, Rplus_0_l, rnd32_id in A3 by apply rep32_b2r. rewrite E2, Vny, Rminus_0_l, rnd32_id in S3 by (apply rep32_opp, rep32_b2r).
    destruct (flt (sign_point_in_line xc yc f1 (fopp f0)) f0); apply FF; auto; try (rewrite ?A1, ?S1; auto; fail).
    - rewrite A3. apply Rabs_pos_eq. lra.
    - rewrite S3, Rabs_Ropp. apply Rabs_pos_eq. lra.
  Qed.

  Lemma centre_counts : forall x y r, bd x 20 -> bd y 20 -> 0 <= b2r x <= 64 -> 0 <= b2r y <= 64 -> fin r -> 1 <= b2r r <= 1048576 ->
    exists x0 y0 x1 y1 v, dab_box x y r = Ok (x0, y0, x1, y1) /\ (x0 <= mid x <= x1)%Z /\ (y0 <= mid y <= y1)%Z /\
      mask_value trig x y r fhalf fhalf f1 f0 (mid x) (mid y) = Ok v /\ (1 <= v)%Z.
  Proof.
    intros x y r Bx By Hx Hy Fr Hr.
    destruct (dab_box_ok x y r Bx By Fr) as (X0 & Y0 & X1 & Y1 & E & LX & LY & HX & HY & _); [lra|].
    destruct (half_counts (rr_at trig x y r f1 f0 (mid x) (mid y))) as (v & Ev & Lv).
    1,2: destruct (Rlt_le_dec (b2r r) 3); [apply centre_small|apply centre_big]; auto; lra.
    eexists _, _, _, _, v. split; [exact E|]. split; [eapply mid_in_box; eauto|]. split; [eapply mid_in_box; eauto|]. split; auto.
  Qed.
End Flat.
