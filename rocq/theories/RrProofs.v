(** The squared distance computed for each pixel, bit exact: never negative,
    never infinite, and not a NaN except possibly in one degenerate
    configuration of the antialiased branch. *)
From Verif Require Import Base F32 F32Proofs Blend BlendProofs BlendColorProofs Mask OpaProofs AaProofs.
From Coq Require Import Reals Lra.
From Flocq Require Import Core.Core IEEE754.BinarySingleNaN.
Open Scope R_scope.

(** a finite float of magnitude at most 2^k *)
Definition bd (x : f32) (k : Z) : Prop := fin x /\ Rabs (b2r x) <= bpow radix2 k.

Lemma rnd_bpow : forall x k, (-149 <= k)%Z -> Rabs x <= bpow radix2 k -> Rabs (rnd32 x) <= bpow radix2 k.
Proof.
  intros x k Hk H. apply Rabs_le_inv in H. apply Rabs_le. split.
  - apply rnd32_ge_r; [apply rep32_opp, rep32_bpow; auto|tauto].
  - apply rnd32_le_r; [apply rep32_bpow; auto|tauto].
Qed.

Lemma bd_weak : forall x a b, bd x a -> (a <= b)%Z -> bd x b.
Proof. intros x a b (F & H) L. split; auto. eapply Rle_trans; [exact H|apply bpow_le; auto]. Qed.

Lemma bpow_S : forall k, bpow radix2 (k + 1) = 2 * bpow radix2 k.
Proof. intros. rewrite bpow_plus. simpl. lra. Qed.

Lemma bd_add : forall x y k, bd x k -> bd y k -> (-149 <= k <= 126)%Z -> bd (fadd x y) (k + 1).
Proof.
  intros x y k (Fx & Hx) (Fy & Hy) Hk.
  assert (Rabs (b2r x + b2r y) <= bpow radix2 (k + 1)) as S.
  { rewrite bpow_S. eapply Rle_trans; [apply Rabs_triang|lra]. }
  destruct (fadd_spec x y Fx Fy) as (E & F).
  { eapply Rle_trans; [exact S|apply bpow_le; lia]. }
  split; auto. rewrite E. apply rnd_bpow; auto. lia.
Qed.

Lemma bd_opp : forall x k, bd x k -> bd (fopp x) k.
Proof.
  intros x k (F & H). destruct (fopp_spec x) as (E & G). split; auto. rewrite E, Rabs_Ropp. auto.
Qed.

Lemma bd_sub : forall x y k, bd x k -> bd y k -> (-149 <= k <= 126)%Z -> bd (fsub x y) (k + 1).
Proof.
  intros x y k (Fx & Hx) (Fy & Hy) Hk.
  assert (Rabs (b2r x - b2r y) <= bpow radix2 (k + 1)) as S.
  { rewrite bpow_S. unfold Rminus. eapply Rle_trans; [apply Rabs_triang|]. rewrite Rabs_Ropp. lra. }
  destruct (fsub_spec x y Fx Fy) as (E & F).
  { eapply Rle_trans; [exact S|apply bpow_le; lia]. }
  split; auto. rewrite E. apply rnd_bpow; auto. lia.
Qed.

Lemma bd_mul : forall x y a b, bd x a -> bd y b -> (-149 <= a + b <= 127)%Z -> bd (fmul x y) (a + b).
Proof.
  intros x y a b (Fx & Hx) (Fy & Hy) Hk.
  assert (Rabs (b2r x * b2r y) <= bpow radix2 (a + b)) as S.
  { rewrite bpow_plus, Rabs_mult. apply Rmult_le_compat; auto using Rabs_pos. }
  destruct (fmul_spec x y Fx Fy) as (E & F).
  { eapply Rle_trans; [exact S|apply bpow_le; lia]. }
  split; auto. rewrite E. apply rnd_bpow; auto. lia.
Qed.

Lemma bd_of_Z : forall z k, (Z.abs z <= 16777216)%Z -> (0 <= k)%Z -> (Z.abs z <= 2 ^ k)%Z -> bd (f_of_Z z) k.
Proof.
  intros z k Hz Hk H. destruct (f_of_Z_exact z Hz) as (E & F). split; auto.
  rewrite E, <- abs_IZR, bpow_Z by auto. apply IZR_le; auto.
Qed.

Lemma bd_clamp : forall x lo hi k, bd x k -> bd lo k -> bd hi k -> bd (clampf x lo hi) k.
Proof. intros. unfold clampf. repeat match goal with |- context [if ?b then _ else _] => destruct b end; auto. Qed.

Definition nn (x : f32) : Prop := 0 <= b2r x.

Lemma sq_nn : forall x k, bd x k -> (-149 <= k + k <= 127)%Z -> nn (fmul x x).
Proof.
  intros x k (F & H) Hk. destruct (fmul_spec x x F F) as (E & _).
  { rewrite Rabs_mult. apply Rle_trans with (bpow radix2 k * bpow radix2 k).
    - apply Rmult_le_compat; auto using Rabs_pos.
    - rewrite <- bpow_plus. apply bpow_le. lia. }
  unfold nn. rewrite E. apply nonneg_rnd. apply Rle_0_sqr.
Qed.

Lemma add_nn : forall x y k, bd x k -> bd y k -> (-149 <= k <= 126)%Z -> nn x -> nn y -> nn (fadd x y).
Proof.
  intros x y k (Fx & Hx) (Fy & Hy) Hk Nx Ny.
  destruct (fadd_spec x y Fx Fy) as (E & F).
  { eapply Rle_trans; [apply Rabs_triang|]. apply Rle_trans with (bpow radix2 (k + 1)); [rewrite bpow_S; lra|apply bpow_le; lia]. }
  unfold nn. rewrite E. apply nonneg_rnd. unfold nn in *. lra.
Qed.

Lemma mul_nn : forall x y a b, bd x a -> bd y b -> (-149 <= a + b <= 127)%Z -> nn x -> nn y -> nn (fmul x y).
Proof.
  intros x y a b (Fx & Hx) (Fy & Hy) Hk Nx Ny.
  destruct (fmul_spec x y Fx Fy) as (E & F).
  { rewrite Rabs_mult. apply Rle_trans with (bpow radix2 a * bpow radix2 b).
    - apply Rmult_le_compat; auto using Rabs_pos.
    - rewrite <- bpow_plus. apply bpow_le. lia. }
  unfold nn. rewrite E. apply nonneg_rnd. apply Rmult_le_pos; auto.
Qed.

Lemma lit24 : forall (x : f32) m r, B2SF x = SpecFloat.S754_finite false m (-24) -> IZR (Zpos m) * / 16777216 = r ->
  b2r x = r /\ fin x.
Proof.
  intros x m r E H. split.
  - rewrite <- SF2R_B2SF, E. unfold SF2R, F2R. cbn [Fnum Fexp Zaux.cond_Zopp].
    change (bpow radix2 (-24)) with (/ 16777216). exact H.
  - unfold fin. rewrite <- is_finite_SF_B2SF, E. reflexivity.
Qed.

Lemma fhalf_val : b2r fhalf = / 2 /\ fin fhalf.
Proof. apply lit24 with 8388608%positive; [vm_compute; reflexivity|lra]. Qed.

Lemma bd_half : bd fhalf 0.
Proof. destruct fhalf_val as (E & F). split; auto. rewrite E. simpl. rewrite Rabs_pos_eq; lra. Qed.
Lemma bd_one : bd f1 0.
Proof. destruct f1_val as (E & F). split; auto. rewrite E. simpl. rewrite Rabs_pos_eq; lra. Qed.
Lemma bd_zero : bd f0 0.
Proof. destruct f0_val as (E & F). split; auto. rewrite E. simpl. rewrite Rabs_R0; lra. Qed.

Lemma r_sample_ok : forall x y a sn cs k, bd x k -> bd y k -> bd a 20 -> bd sn 0 -> bd cs 0 ->
  (0 <= k <= 30)%Z ->
  bd (calculate_r_sample x y a sn cs) (2 * k + 43) /\ nn (calculate_r_sample x y a sn cs).
Proof.
  intros x y a sn cs k Bx By Ba Bs Bc Hk. unfold calculate_r_sample.
  assert (bd (fsub (fmul y cs) (fmul x sn)) (k + 0 + 1)) as B1 by (apply bd_sub; [apply bd_mul|apply bd_mul|]; auto; lia).
  assert (bd (fmul (fsub (fmul y cs) (fmul x sn)) a) (k + 0 + 1 + 20)) as B2 by (apply bd_mul; auto; lia).
  assert (bd (fadd (fmul y sn) (fmul x cs)) (k + 0 + 1)) as B3 by (apply bd_add; [apply bd_mul|apply bd_mul|]; auto; lia).
  set (yyr := fmul (fsub (fmul y cs) (fmul x sn)) a) in *. set (xxr := fadd (fmul y sn) (fmul x cs)) in *.
  assert (bd (fmul yyr yyr) (2 * k + 42)) as Q1.
  { replace (2 * k + 42)%Z with ((k + 0 + 1 + 20) + (k + 0 + 1 + 20))%Z by lia. apply bd_mul; auto; lia. }
  assert (bd (fmul xxr xxr) (2 * k + 42)) as Q2.
  { apply bd_weak with ((k + 0 + 1) + (k + 0 + 1))%Z; [apply bd_mul; auto; lia|lia]. }
  split.
  - replace (2 * k + 43)%Z with ((2 * k + 42) + 1)%Z by lia. apply bd_add; auto; lia.
  - eapply add_nn; [exact Q1|exact Q2|lia| |].
    + eapply sq_nn; [exact B2|lia].
    + eapply sq_nn; [exact B3|lia].
Qed.

Lemma rr_plain_ok : forall xp yp x y a sn cs oor,
  (0 <= xp <= 63)%Z -> (0 <= yp <= 63)%Z -> bd x 20 -> bd y 20 -> bd a 20 -> bd sn 0 -> bd cs 0 ->
  bd oor 9 -> nn oor ->
  bd (calculate_rr xp yp x y a sn cs oor) 94 /\ nn (calculate_rr xp yp x y a sn cs oor).
Proof.
  intros xp yp x y a sn cs oor Hx Hy Bx By Ba Bs Bc Bo No.
  assert (forall p v, (0 <= p <= 63)%Z -> bd v 20 -> bd (fsub (fadd (f_of_Z p) fhalf) v) 21) as K.
  { intros p v Hp Bv. change 21%Z with (20 + 1)%Z. apply bd_sub; auto; [|lia].
    apply bd_weak with (6 + 1)%Z; [|lia]. apply bd_add; [|apply bd_weak with 0%Z; [apply bd_half|lia]|lia].
    apply bd_of_Z; try lia. }
  destruct (r_sample_ok _ _ a sn cs 21 (K xp x Hx Bx) (K yp y Hy By) Ba Bs Bc) as (B & N); [lia|].
  change (2 * 21 + 43)%Z with 85%Z in B.
  unfold calculate_r_sample in B, N. unfold calculate_rr. split.
  - change 94%Z with (85 + 9)%Z. apply bd_mul; auto. lia.
  - eapply mul_nn; [exact B|exact Bo|lia|exact N|exact No].
Qed.

Lemma rad_area_ok : bd rad_area_1 0.
Proof.
  destruct (lit24 rad_area_1 9465530%positive _ ltac:(vm_compute; reflexivity) eq_refl) as (E & F).
  split; auto. rewrite E. simpl. apply Rabs_le. lra.
Qed.

Lemma nn_le_bd : forall x, fin x -> 0 <= b2r x <= 1 -> bd x 0.
Proof. intros. split; auto. simpl. apply Rabs_le. lra. Qed.

(** 344-352, from the two squared distances *)
Lemma aa_tail_ok : forall near far aa r_far, fin near -> 0 <= b2r near <= 1 -> bd far 110 -> nn far ->
  let v := if flt r_far aa then fmul (fadd far near) fhalf
           else fsub f1 (fdiv (fsub f1 near) (fadd f1 (fsub far near))) in
  (bd v 110 /\ nn v) \/ (b2r near = 1 /\ b2r far <= / 16777216 /\ flt r_far aa = false).
Proof.
  intros near far aa r_far Fn Hn Bf Nf. cbv zeta.
  assert (bd near 0) as Bn by (apply nn_le_bd; auto).
  destruct f1_val as (V1 & F1).
  destruct (flt r_far aa).
  { left. assert (bd (fadd far near) 111) as S.
    { change 111%Z with (110 + 1)%Z. apply bd_add; auto; [eapply bd_weak; [exact Bn|lia]|lia]. }
    assert (nn (fadd far near)) as SN.
    { eapply add_nn; [exact Bf|eapply bd_weak; [exact Bn|lia]|lia|auto|unfold nn; lra]. }
    destruct fhalf_val as (VH & FH).
    assert (bd fhalf (-1)) as BH by (split; auto; rewrite VH; simpl; rewrite Rabs_pos_eq; lra).
    split.
    - change 110%Z with (111 + -1)%Z. apply bd_mul; auto. lia.
    - eapply mul_nn; [exact S|exact BH|lia|exact SN|unfold nn; lra]. }
  destruct (fsub_spec f1 near F1 Fn) as (Ev & Fv).
  { rewrite V1. apply Rle_trans with (bpow radix2 0); [simpl; apply Rabs_le; lra|apply bpow_le; lia]. }
  rewrite V1 in Ev.
  assert (bd (fsub far near) 111) as Bd1.
  { change 111%Z with (110 + 1)%Z. apply bd_sub; auto; [eapply bd_weak; [exact Bn|lia]|lia]. }
  destruct (fsub_spec far near (proj1 Bf) Fn) as (Ed & Fd).
  { destruct Bf as (_ & Bf). unfold Rminus. eapply Rle_trans; [apply Rabs_triang|]. rewrite Rabs_Ropp.
    apply Rle_trans with (bpow radix2 (110 + 1)); [|apply bpow_le; lia]. rewrite bpow_S.
    assert (Rabs (b2r near) <= bpow radix2 110); [|lra].
    apply Rle_trans with (bpow radix2 0); [apply Bn|apply bpow_le; lia]. }
  assert (bd (fadd f1 (fsub far near)) 112) as Bd2.
  { change 112%Z with (111 + 1)%Z. apply bd_add; auto; [eapply bd_weak; [exact bd_one|lia]|lia]. }
  destruct (fadd_spec f1 (fsub far near) F1 Fd) as (E2 & F2).
  { destruct Bd1 as (_ & Bd1). eapply Rle_trans; [apply Rabs_triang|].
    apply Rle_trans with (bpow radix2 (111 + 1)); [|apply bpow_le; lia]. rewrite bpow_S.
    assert (Rabs (b2r f1) <= bpow radix2 111); [|lra].
    apply Rle_trans with (bpow radix2 0); [apply bd_one|apply bpow_le; lia]. }
  rewrite V1 in E2.
  set (vis := fsub f1 near) in *. set (delta := fsub far near) in *. set (d2 := fadd f1 delta) in *.
  assert (- b2r near <= b2r delta) as D1.
  { rewrite Ed. apply rnd32_ge_r; [apply rep32_opp, rep32_b2r|]. unfold nn in Nf. lra. }
  assert (b2r vis <= b2r d2) as D2. { rewrite Ev, E2. apply rnd32_le. lra. }
  assert (0 <= b2r vis <= 1) as D3. { rewrite Ev. split; [apply nonneg_rnd; lra|apply rnd_le1; lra]. }
  destruct (Rle_lt_dec (b2r d2) 0) as [Z|P].
  - right. assert (b2r vis = 0) as V0 by lra.
    assert (b2r near = 1) as N1.
    { destruct (Rle_lt_dec 1 (b2r near)); [lra|]. exfalso.
      assert (b2r near <= 1 - U) as G by (apply lt1_gap; [apply rep32_b2r|auto]).
      assert (U <= rnd32 (1 - b2r near)); [|unfold U in *; lra].
      apply rnd32_ge_r; [rewrite <- U_bpow; apply rep32_bpow; lia|lra]. }
    split; auto. split; auto.
    destruct (Rle_lt_dec (b2r far) (/ 16777216)) as [|L]; auto. exfalso.
    assert (- (1 - U) <= b2r delta) as G.
    { rewrite Ed, N1. apply rnd32_ge_r.
      - replace (- (1 - U)) with (IZR (-16777215) * bpow radix2 (-24)) by (unfold U; simpl; lra).
        apply rep32_scaled; lia.
      - unfold U. lra. }
    assert (U <= b2r d2); [|unfold U in *; lra].
    rewrite E2. apply rnd32_ge_r; [rewrite <- U_bpow; apply rep32_bpow; lia|lra].
  - left. assert (0 <= b2r vis / b2r d2 <= 1) as Q.
    { split; [apply div_pos; lra|apply div_le; lra]. }
    destruct (fdiv_spec vis d2 Fv) as (Eq & Fq); [lra|..].
    { rewrite Rabs_pos_eq by tauto. apply Rle_trans with (bpow radix2 0); [simpl; lra|apply bpow_le; lia]. }
    assert (0 <= b2r (fdiv vis d2) <= 1) as Q1.
    { rewrite Eq. split; [apply nonneg_rnd; tauto|apply rnd_le1; tauto]. }
    destruct (fsub_spec f1 (fdiv vis d2) F1 Fq) as (Er & Fr).
    { rewrite V1. apply Rle_trans with (bpow radix2 0); [simpl; apply Rabs_le; lra|apply bpow_le; lia]. }
    rewrite V1 in Er. assert (0 <= b2r (fsub f1 (fdiv vis d2)) <= 1) as R.
    { rewrite Er. split; [apply nonneg_rnd; lra|apply rnd_le1; lra]. }
    split; [|exact (proj1 R)]. apply bd_weak with 0%Z; [apply nn_le_bd; auto|lia].
Qed.

(** [aspect_ratio] after the correction at 383 *)
Definition fix_aspect (a : f32) : f32 := if flt a f1 then f1 else a.

Lemma fix_aspect_ok : forall a, bd a 20 -> bd (fix_aspect a) 20 /\ 1 <= b2r (fix_aspect a).
Proof.
  intros a B. unfold fix_aspect. destruct f1_val as (V1 & F1). rewrite flt_spec by (auto; apply B). rewrite V1.
  destruct (Rlt_bool_spec (b2r a) 1).
  - split; [apply bd_weak with 0%Z; [apply bd_one|lia]|lra].
  - split; auto.
Qed.

Lemma oor_ok : forall r, fin r -> / 16 <= b2r r <= 1048576 ->
  bd (fdiv f1 (fmul r r)) 9 /\ nn (fdiv f1 (fmul r r)).
Proof.
  intros r F H. destruct f1_val as (V1 & F1).
  assert (/ 256 <= b2r r * b2r r <= bpow radix2 40) as S.
  { split.
    - apply Rle_trans with (/ 16 * / 16); [lra|]. apply Rmult_le_compat; lra.
    - apply Rle_trans with (1048576 * 1048576); [apply Rmult_le_compat; lra|simpl; lra]. }
  destruct (fmul_spec r r F F) as (E & G).
  { rewrite Rabs_pos_eq by lra. eapply Rle_trans; [apply S|apply bpow_le; lia]. }
  assert (/ 256 <= rnd32 (b2r r * b2r r)) as L.
  { apply rnd32_ge_r; [|lra]. change (/ 256) with (bpow radix2 (-8)). apply rep32_bpow. lia. }
  assert (0 <= 1 / rnd32 (b2r r * b2r r) <= 256) as Q.
  { split; [apply div_pos; lra|]. apply div_le; lra. }
  assert (bpow radix2 8 <= bpow radix2 127) as B8 by (apply bpow_le; lia). change (bpow radix2 8) with 256 in B8.
  destruct (fdiv_spec f1 (fmul r r) F1) as (Ed & Fd).
  { lra. }
  { rewrite V1, E, Rabs_pos_eq by tauto. lra. }
  rewrite V1, E in Ed. unfold nn. rewrite Ed. split.
  - split; auto. rewrite Ed. apply rnd_bpow; [lia|]. rewrite Rabs_pos_eq by tauto.
    apply Rle_trans with (bpow radix2 8); [simpl; lra|apply bpow_le; lia].
  - apply nonneg_rnd. tauto.
Qed.

(** cosine and sine as returned by the C library: finite, at most one in
    magnitude, squares adding up to one within 2^-16 *)
Definition trig_ok (p : f32 * f32) : Prop :=
  bd (fst p) 0 /\ bd (snd p) 0 /\
  Rabs (b2r (fst p) * b2r (fst p) + b2r (snd p) * b2r (snd p) - 1) <= / 65536.

Lemma rr_big : forall trig x y radius a angle xp yp,
  trig_ok (trig angle) -> bd x 20 -> bd y 20 -> bd a 20 -> fin radius -> 3 <= b2r radius <= 1048576 ->
  (0 <= xp <= 63)%Z -> (0 <= yp <= 63)%Z ->
  nonneg_f (rr_at trig x y radius a angle xp yp).
Proof.
  intros trig x y radius a angle xp yp (Bc & Bs & _) Bx By Ba Fr Hr Hx Hy.
  unfold rr_at. fold (fix_aspect a). destruct (fix_aspect_ok a Ba) as (Ba' & _).
  destruct (trig angle) as (cs, sn). cbn [fst snd] in *.
  destruct (oor_ok radius Fr) as (Bo & No); [lra|].
  destruct (f_of_Z_exact 3) as (V3 & F3); [lia|]. fold f3 in V3, F3.
  rewrite flt_spec, V3 by auto. rewrite Rlt_bool_false by lra.
  destruct (rr_plain_ok xp yp x y (fix_aspect a) sn cs (fdiv f1 (fmul radius radius))) as ((F & _) & N); auto.
  left. auto.
Qed.

(** the antialiased case: fine, or 0/0 (the nearest point exactly on the edge
    and the farthest point at the centre) *)
Lemma closest_ok : forall cs sn px py k, trig_ok (cs, sn) -> bd px k -> bd py k -> (0 <= k <= 60)%Z ->
  bd (fst (closest_point_to_line cs sn px py)) (k + 3) /\ bd (snd (closest_point_to_line cs sn px py)) (k + 3).
Proof.
  intros cs sn px py k (Bc & Bs & Q) Bx By Hk. apply Rabs_le_inv in Q. cbn [fst snd] in *. unfold closest_point_to_line. cbn [fst snd].
  set (l2 := fadd (fmul cs cs) (fmul sn sn)). set (dot := fadd (fmul px cs) (fmul py sn)).
  assert (bd dot (k + 1)) as Bd.
  { replace (k + 1)%Z with ((k + 0) + 1)%Z by lia. apply bd_add; [apply bd_mul|apply bd_mul|]; auto; lia. }
  assert (bd (fmul cs cs) 0) as Bcc by (change 0%Z with (0 + 0)%Z; apply bd_mul; auto; lia).
  assert (bd (fmul sn sn) 0) as Bss by (change 0%Z with (0 + 0)%Z; apply bd_mul; auto; lia).
  assert (bd l2 1) as Bl by (change 1%Z with (0 + 1)%Z; apply bd_add; auto; lia).
  assert (/ 4 <= b2r l2) as Ll.
  { assert (forall v : f32, bd v 0 -> b2r v * b2r v - / 1000000 <= b2r (fmul v v)) as K.
    { intros v (Fv & Hv). simpl in Hv. apply Rabs_le_inv in Hv.
      assert (0 <= b2r v * b2r v <= 1) as S.
      { split; [apply Rle_0_sqr|]. assert (0 <= (1 - b2r v) * (1 + b2r v)) by (apply Rmult_le_pos; lra). lra. }
      destruct (fmul_spec v v Fv Fv) as (E & _).
      { rewrite Rabs_pos_eq by tauto. apply Rle_trans with (bpow radix2 0); [simpl; lra|apply bpow_le; lia]. }
      rewrite E. assert (Rabs (b2r v * b2r v) <= 2) as A by (rewrite Rabs_pos_eq; lra).
      pose proof (rnd_unit_err _ A) as X. apply Rabs_le_inv in X. unfold U in X. lra. }
    pose proof (K cs Bc). pose proof (K sn Bs).
    destruct (fadd_spec (fmul cs cs) (fmul sn sn) (proj1 Bcc) (proj1 Bss)) as (E & _).
    { eapply Rle_trans; [apply Rabs_triang|]. destruct Bcc as (_ & ?), Bss as (_ & ?).
      apply Rle_trans with (bpow radix2 1); [|apply bpow_le; lia]. change (bpow radix2 1) with 2. change (bpow radix2 0) with 1 in *. lra. }
    unfold l2. rewrite E. apply rnd32_ge_r; [change (/ 4) with (bpow radix2 (-2)); apply rep32_bpow; lia|]. lra. }
  assert (bd (fdiv dot l2) (k + 3)) as Bt.
  { destruct Bd as (Fd & Hd).
    assert (Rabs (b2r dot / b2r l2) <= bpow radix2 (k + 3)) as X.
    { unfold Rdiv. rewrite Rabs_mult. replace (k + 3)%Z with ((k + 1) + 2)%Z by lia. rewrite bpow_plus.
      apply Rmult_le_compat; auto using Rabs_pos. rewrite Rabs_inv, Rabs_pos_eq by lra.
      change (bpow radix2 2) with 4. replace 4 with (/ / 4) by lra. apply Rinv_le_contravar; lra. }
    destruct (fdiv_spec dot l2 Fd) as (E & F); [lra|..].
    { eapply Rle_trans; [exact X|apply bpow_le; lia]. }
    split; auto. rewrite E. apply rnd_bpow; auto. lia. }
  split; replace (k + 3)%Z with (0 + (k + 3))%Z by lia; apply bd_mul; auto; lia.
Qed.


(** approximations: [x] is finite and within [e] of the real [r] *)
Definition ap (x : f32) (r e : R) : Prop := fin x /\ Rabs (b2r x - r) <= e.
Definition eta : R := / 524288.   (* 2^-19, rounding error of results up to 64 *)

Lemma big64 : forall z, Rabs z <= 64 -> Rabs z <= bpow radix2 127 /\ Rabs (rnd32 z - z) <= eta.
Proof.
  intros z H. split.
  - apply Rle_trans with (bpow radix2 6); [exact H|apply bpow_le; lia].
  - change eta with (bpow radix2 (6 - 25)). apply rnd32_err; [exact H|lia].
Qed.

Lemma ap_self : forall x, fin x -> ap x (b2r x) 0.
Proof. intros. split; auto. rewrite Rminus_diag_eq, Rabs_R0 by auto. lra. Qed.
Lemma ap_weak : forall x r d e, ap x r d -> d <= e -> ap x r e.
Proof. intros x r d e (F & H) L. split; auto. lra. Qed.

Lemma ap_add : forall x y a b d e, ap x a d -> ap y b e -> Rabs (a + b) + (d + e) <= 64 ->
  ap (fadd x y) (a + b) (d + e + eta).
Proof.
  intros x y a b d e (Fx & Hx) (Fy & Hy) M.
  assert (Rabs (b2r x + b2r y - (a + b)) <= d + e) as S.
  { replace (b2r x + b2r y - (a + b)) with ((b2r x - a) + (b2r y - b)) by ring.
    eapply Rle_trans; [apply Rabs_triang|lra]. }
  assert (Rabs (b2r x + b2r y) <= 64) as B.
  { replace (b2r x + b2r y) with ((a + b) + (b2r x + b2r y - (a + b))) by ring.
    eapply Rle_trans; [apply Rabs_triang|lra]. }
  destruct (big64 _ B) as (B1 & B2). destruct (fadd_spec x y Fx Fy B1) as (E & F).
  split; auto. rewrite E.
  replace (rnd32 (b2r x + b2r y) - (a + b)) with ((b2r x + b2r y - (a + b)) + (rnd32 (b2r x + b2r y) - (b2r x + b2r y))) by ring.
  eapply Rle_trans; [apply Rabs_triang|lra].
Qed.

Lemma ap_opp : forall x a d, ap x a d -> ap (fopp x) (- a) d.
Proof.
  intros x a d (F & H). destruct (fopp_spec x) as (E & G). split; auto. rewrite E.
  replace (- b2r x - - a) with (- (b2r x - a)) by ring. rewrite Rabs_Ropp. auto.
Qed.

Lemma ap_sub : forall x y a b d e, ap x a d -> ap y b e -> Rabs (a - b) + (d + e) <= 64 ->
  ap (fsub x y) (a - b) (d + e + eta).
Proof.
  intros x y a b d e (Fx & Hx) (Fy & Hy) M.
  assert (Rabs (b2r x - b2r y - (a - b)) <= d + e) as S.
  { replace (b2r x - b2r y - (a - b)) with ((b2r x - a) - (b2r y - b)) by ring.
    unfold Rminus at 1. eapply Rle_trans; [apply Rabs_triang|]. rewrite Rabs_Ropp. lra. }
  assert (Rabs (b2r x - b2r y) <= 64) as B.
  { replace (b2r x - b2r y) with ((a - b) + (b2r x - b2r y - (a - b))) by ring.
    eapply Rle_trans; [apply Rabs_triang|lra]. }
  destruct (big64 _ B) as (B1 & B2). destruct (fsub_spec x y Fx Fy B1) as (E & F).
  split; auto. rewrite E.
  replace (rnd32 (b2r x - b2r y) - (a - b)) with ((b2r x - b2r y - (a - b)) + (rnd32 (b2r x - b2r y) - (b2r x - b2r y))) by ring.
  eapply Rle_trans; [apply Rabs_triang|lra].
Qed.

(** the second factor is at most one in magnitude and exact *)
Lemma ap_mul : forall x y a d, ap x a d -> fin y -> Rabs (b2r y) <= 1 -> Rabs a + d <= 64 ->
  ap (fmul x y) (a * b2r y) (d + eta).
Proof.
  intros x y a d (Fx & Hx) Fy Hy M.
  assert (Rabs (b2r x) <= Rabs a + d) as Bx.
  { replace (b2r x) with (a + (b2r x - a)) by ring. eapply Rle_trans; [apply Rabs_triang|lra]. }
  assert (Rabs (b2r x * b2r y) <= 64) as B.
  { rewrite Rabs_mult. apply Rle_trans with (64 * 1); [|lra]. apply Rmult_le_compat; auto using Rabs_pos. lra. }
  destruct (big64 _ B) as (B1 & B2). destruct (fmul_spec x y Fx Fy B1) as (E & F).
  split; auto. rewrite E.
  replace (rnd32 (b2r x * b2r y) - a * b2r y) with ((b2r x - a) * b2r y + (rnd32 (b2r x * b2r y) - b2r x * b2r y)) by ring.
  eapply Rle_trans; [apply Rabs_triang|]. rewrite Rabs_mult.
  assert (Rabs (b2r x - a) * Rabs (b2r y) <= d * 1) by (apply Rmult_le_compat; auto using Rabs_pos). lra.
Qed.

Lemma ap_mul_l : forall x y a d, ap x a d -> fin y -> Rabs (b2r y) <= 1 -> Rabs a + d <= 64 ->
  ap (fmul y x) (b2r y * a) (d + eta).
Proof.
  intros x y a d (Fx & Hx) Fy Hy M.
  assert (Rabs (b2r x) <= Rabs a + d) as Bx.
  { replace (b2r x) with (a + (b2r x - a)) by ring. eapply Rle_trans; [apply Rabs_triang|lra]. }
  assert (Rabs (b2r y * b2r x) <= 64) as B.
  { rewrite Rabs_mult. apply Rle_trans with (1 * 64); [|lra]. apply Rmult_le_compat; auto using Rabs_pos. lra. }
  destruct (big64 _ B) as (B1 & B2). destruct (fmul_spec y x Fy Fx B1) as (E & F).
  split; auto. rewrite E.
  replace (rnd32 (b2r y * b2r x) - b2r y * a) with (b2r y * (b2r x - a) + (rnd32 (b2r y * b2r x) - b2r y * b2r x)) by ring.
  eapply Rle_trans; [apply Rabs_triang|]. rewrite Rabs_mult.
  assert (Rabs (b2r y) * Rabs (b2r x - a) <= 1 * d) by (apply Rmult_le_compat; auto using Rabs_pos). lra.
Qed.

Section AA.
  Variables cs sn : f32.
  Hypothesis T : trig_ok (cs, sn).
  Let c := b2r cs.
  Let s := b2r sn.
  Lemma T_c : fin cs /\ Rabs c <= 1. Proof. destruct T as ((A & B) & _). auto. Qed.
  Lemma T_s : fin sn /\ Rabs s <= 1. Proof. destruct T as (_ & (A & B) & _). auto. Qed.
  Lemma T_1 : Rabs (c * c + s * s - 1) <= / 65536. Proof. destruct T as (_ & _ & Q). exact Q. Qed.

  Lemma abs_mul1 : forall a b M, Rabs a <= M -> Rabs b <= 1 -> Rabs (a * b) <= M.
  Proof.
    intros. rewrite Rabs_mult. replace M with (M * 1) by ring. apply Rmult_le_compat; auto using Rabs_pos.
  Qed.
  Lemma abs_add : forall a b A B, Rabs a <= A -> Rabs b <= B -> Rabs (a + b) <= A + B.
  Proof. intros. eapply Rle_trans; [apply Rabs_triang|lra]. Qed.
  Lemma abs_sub : forall a b A B, Rabs a <= A -> Rabs b <= B -> Rabs (a - b) <= A + B.
  Proof. intros. unfold Rminus. eapply Rle_trans; [apply Rabs_triang|]. rewrite Rabs_Ropp. lra. Qed.

  (** the projection of a point on the axis *)
  Lemma closest_ap : forall px py, fin px -> fin py -> Rabs (b2r px) <= 9 -> Rabs (b2r py) <= 9 ->
    let t := b2r px * c + b2r py * s in
    ap (fst (closest_point_to_line cs sn px py)) (t * c) (/ 1000) /\
    ap (snd (closest_point_to_line cs sn px py)) (t * s) (/ 1000).
  Proof.
    intros px py Fx Fy Hx Hy t. destruct T_c as (Fc & Hc). destruct T_s as (Fs & Hs). pose proof T_1 as Q.
    assert (Rabs (b2r px * c) <= 9) as M1 by (apply abs_mul1; auto).
    assert (Rabs (b2r py * s) <= 9) as M2 by (apply abs_mul1; auto).
    assert (Rabs t <= 18) as M3 by (unfold t; replace 18 with (9 + 9) by ring; apply abs_add; auto).
    unfold closest_point_to_line. cbn [fst snd].
    set (l2 := fadd (fmul cs cs) (fmul sn sn)). set (dot := fadd (fmul px cs) (fmul py sn)).
    assert (ap dot t (3 * eta)) as Ad.
    { eapply ap_weak; [apply ap_add; [apply ap_mul; [apply ap_self|..]|apply ap_mul; [apply ap_self|..]|]; auto; unfold eta; try lra|].
      - fold c s. fold t. lra.
      - lra. }
    assert (ap l2 (c * c + s * s) (3 * eta)) as Al.
    { apply Rabs_le_inv in Q. assert (Rabs (c * c + s * s) <= 2) by (apply Rabs_le; lra).
      eapply ap_weak; [apply ap_add; [apply ap_mul; [apply ap_self|..]|apply ap_mul; [apply ap_self|..]|]; auto; unfold eta; fold c s; try lra|].
      lra. }
    assert (Rabs (b2r l2 - 1) <= / 32768) as L1.
    { destruct Al as (_ & Al). replace (b2r l2 - 1) with ((b2r l2 - (c * c + s * s)) + (c * c + s * s - 1)) by ring.
      eapply Rle_trans; [apply Rabs_triang|]. unfold eta in Al. lra. }
    destruct Ad as (Fd & Hd). destruct Al as (Fl & _).
    assert (Rabs (b2r dot) <= 19) as Md.
    { replace (b2r dot) with (t + (b2r dot - t)) by ring. eapply Rle_trans; [apply Rabs_triang|]. unfold eta in Hd. lra. }
    pose proof (Rabs_le_inv _ _ L1) as L1'.
    assert (Rabs (b2r dot / b2r l2 - b2r dot) <= / 1500) as Qd.
    { replace (b2r dot / b2r l2 - b2r dot) with (b2r dot * ((1 - b2r l2) * / b2r l2)) by (field; lra).
      rewrite Rabs_mult. apply Rle_trans with (19 * (/ 30000)); [|lra].
      apply Rmult_le_compat; auto using Rabs_pos. rewrite Rabs_mult.
      apply Rle_trans with (/ 32768 * (1001 / 1000)); [|lra].
      apply Rmult_le_compat; auto using Rabs_pos.
      - rewrite <- Rabs_Ropp. replace (- (1 - b2r l2)) with (b2r l2 - 1) by ring. auto.
      - rewrite Rabs_inv, Rabs_pos_eq by lra. replace (1001 / 1000) with (/ (1000 / 1001)) by lra. apply Rinv_le_contravar; lra. }
    assert (Rabs (b2r dot / b2r l2) <= 64) as Mq.
    { replace (b2r dot / b2r l2) with (b2r dot + (b2r dot / b2r l2 - b2r dot)) by ring.
      eapply Rle_trans; [apply Rabs_triang|]. lra. }
    destruct (big64 _ Mq) as (B1 & B2).
    destruct (fdiv_spec dot l2 Fd) as (Eq & Fq); [lra|exact B1|].
    assert (ap (fdiv dot l2) t (/ 1200)) as At.
    { split; auto. rewrite Eq.
      replace (rnd32 (b2r dot / b2r l2) - t) with
        ((rnd32 (b2r dot / b2r l2) - b2r dot / b2r l2) + ((b2r dot / b2r l2 - b2r dot) + (b2r dot - t))) by ring.
      eapply Rle_trans; [apply Rabs_triang|].
      assert (Rabs (b2r dot / b2r l2 - b2r dot + (b2r dot - t)) <= / 1500 + 3 * eta) by (eapply Rle_trans; [apply Rabs_triang|lra]).
      unfold eta in *. lra. }
    split.
    - rewrite (Rmult_comm t). eapply ap_weak; [apply ap_mul_l; [exact At|auto|auto|lra]|unfold eta; lra].
    - rewrite (Rmult_comm t). eapply ap_weak; [apply ap_mul_l; [exact At|auto|auto|lra]|unfold eta; lra].
  Qed.

  (** one axis of the clamping *)
  Lemma clamp_axis : forall q right, fin q -> fin right -> Rabs (b2r right) <= 8 ->
    axis (b2r q) (b2r (clampf q (fsub right f1) right))
         (b2r (fsub right fhalf) - b2r (clampf q (fsub right f1) right)) /\
    fin (clampf q (fsub right f1) right) /\ Rabs (b2r (clampf q (fsub right f1) right)) <= 10.
  Proof.
    intros q right Fq Fr Hr. destruct f1_val as (V1 & F1). destruct fhalf_val as (VH & FH).
    assert (ap (fsub right f1) (b2r right - 1) (0 + 0 + eta)) as A1.
    { rewrite <- V1. apply ap_sub; try apply ap_self; auto. rewrite V1.
      assert (Rabs (b2r right - 1) <= 8 + 1) by (apply abs_sub; auto; rewrite Rabs_R1; lra). lra. }
    assert (ap (fsub right fhalf) (b2r right - / 2) (0 + 0 + eta)) as A2.
    { rewrite <- VH. apply ap_sub; try apply ap_self; auto. rewrite VH.
      assert (Rabs (b2r right - / 2) <= 8 + 1) by (apply abs_sub; auto; rewrite Rabs_pos_eq; lra). lra. }
    destruct A1 as (G1 & H1). destruct A2 as (G2 & H2).
    apply Rabs_le_inv in H1, H2. pose proof (Rabs_le_inv _ _ Hr) as Hr'. unfold eta in *.
    unfold clampf, axis. rewrite !flt_spec by auto.
    destruct (Rlt_bool_spec (b2r right) (b2r q)) as [L|L].
    { split; [|split; [auto|lra]]. split; [apply Rabs_le; lra|]. split; [right; lra|left; lra]. }
    destruct (Rlt_bool_spec (b2r q) (b2r (fsub right f1))) as [M|M].
    { split; [|split; [auto|apply Rabs_le; lra]]. split; [apply Rabs_le; lra|]. split; [left; lra|right; lra]. }
    split; [|split; [auto|apply Rabs_le; lra]]. split; [apply Rabs_le; lra|]. split; [right; lra|right; lra].
  Qed.

  (** a tiny sample means both rotated coordinates are tiny *)
  Lemma sample_small : forall x y a k, bd x k -> bd y k -> (0 <= k <= 30)%Z -> bd a 20 -> 1 <= b2r a ->
    b2r (calculate_r_sample x y a sn cs) <= bpow radix2 (-19) ->
    Rabs (b2r (fsub (fmul y cs) (fmul x sn))) <= bpow radix2 (-9) /\
    Rabs (b2r (fadd (fmul y sn) (fmul x cs))) <= bpow radix2 (-9).
  Proof.
    intros x y a k Bx By Hk Ba La H.
    pose proof T as (Bc & Bs & _). cbn [fst snd] in Bc, Bs.
    unfold calculate_r_sample in H.
    assert (bd (fsub (fmul y cs) (fmul x sn)) (k + 0 + 1)) as B1 by (apply bd_sub; [apply bd_mul|apply bd_mul|]; auto; lia).
    assert (bd (fmul (fsub (fmul y cs) (fmul x sn)) a) (k + 0 + 1 + 20)) as B2 by (apply bd_mul; auto; lia).
    assert (bd (fadd (fmul y sn) (fmul x cs)) (k + 0 + 1)) as B3 by (apply bd_add; [apply bd_mul|apply bd_mul|]; auto; lia).
    set (Y := fsub (fmul y cs) (fmul x sn)) in *. set (yyr := fmul Y a) in *. set (xxr := fadd (fmul y sn) (fmul x cs)) in *.
    assert (bd (fmul yyr yyr) (2 * k + 42)) as Q1.
    { replace (2 * k + 42)%Z with ((k + 0 + 1 + 20) + (k + 0 + 1 + 20))%Z by lia. apply bd_mul; auto; lia. }
    assert (bd (fmul xxr xxr) (2 * k + 42)) as Q2.
    { apply bd_weak with ((k + 0 + 1) + (k + 0 + 1))%Z; [apply bd_mul; auto; lia|lia]. }
    assert (nn (fmul yyr yyr)) as N1 by (eapply sq_nn; [exact B2|lia]).
    assert (nn (fmul xxr xxr)) as N2 by (eapply sq_nn; [exact B3|lia]).
    destruct (fadd_spec (fmul yyr yyr) (fmul xxr xxr) (proj1 Q1) (proj1 Q2)) as (E & _).
    { eapply Rle_trans; [apply Rabs_triang|]. destruct Q1 as (_ & ?), Q2 as (_ & ?).
      apply Rle_trans with (bpow radix2 (2 * k + 42 + 1)); [rewrite bpow_S; lra|apply bpow_le; lia]. }
    unfold nn in *. rewrite E in H.
    assert (b2r (fmul yyr yyr) <= bpow radix2 (-19)) as S1.
    { eapply Rle_trans; [|exact H]. apply rnd32_ge_r; [apply rep32_b2r|lra]. }
    assert (b2r (fmul xxr xxr) <= bpow radix2 (-19)) as S2.
    { eapply Rle_trans; [|exact H]. apply rnd32_ge_r; [apply rep32_b2r|lra]. }
    (* a square rounding to at most 2^-19 comes from a value at most 2^-9 *)
    assert (forall v j, bd v j -> (-149 <= j + j <= 127)%Z -> b2r (fmul v v) <= bpow radix2 (-19) -> Rabs (b2r v) <= bpow radix2 (-9)) as SQ.
    { intros v j (Fv & Hv) Hj S. destruct (Rle_lt_dec (Rabs (b2r v)) (bpow radix2 (-9))) as [|L]; auto. exfalso.
      destruct (fmul_spec v v Fv Fv) as (Ev & _).
      { rewrite Rabs_mult. apply Rle_trans with (bpow radix2 j * bpow radix2 j).
        - apply Rmult_le_compat; auto using Rabs_pos.
        - rewrite <- bpow_plus. apply bpow_le. lia. }
      assert (bpow radix2 (-18) <= b2r v * b2r v) as G.
      { replace (b2r v * b2r v) with (Rabs (b2r v) * Rabs (b2r v)) by (rewrite <- Rabs_mult; apply Rabs_pos_eq, Rle_0_sqr).
        change (bpow radix2 (-18)) with (bpow radix2 (-9 + -9)). rewrite bpow_plus.
        apply Rmult_le_compat; try apply bpow_ge_0; lra. }
      assert (bpow radix2 (-18) <= b2r (fmul v v)).
      { rewrite Ev. apply rnd32_ge_r; [apply rep32_bpow; lia|exact G]. }
      assert (bpow radix2 (-19) < bpow radix2 (-18)) by (apply bpow_lt; lia). lra. }
    split; [|eapply SQ; [exact B3|lia|exact S2]].
    assert (Rabs (b2r yyr) <= bpow radix2 (-9)) as YR by (eapply SQ; [exact B2|lia|exact S1]).
    (* multiplying by the aspect ratio >= 1 does not shrink *)
    destruct (Rle_lt_dec (Rabs (b2r Y)) (bpow radix2 (-9))) as [|L]; auto. exfalso.
    destruct B1 as (FY & HY). destruct Ba as (Fa & Ha).
    destruct (fmul_spec Y a FY Fa) as (Ey & _).
    { rewrite Rabs_mult. apply Rle_trans with (bpow radix2 (k + 0 + 1) * bpow radix2 20).
      - apply Rmult_le_compat; auto using Rabs_pos.
      - rewrite <- bpow_plus. apply bpow_le. lia. }
    assert (rep32 (b2r Y)) as RY by apply rep32_b2r.
    assert (Rabs (b2r Y) <= Rabs (b2r yyr)); [|lra].
    unfold yyr. rewrite Ey.
    destruct (Rle_lt_dec 0 (b2r Y)) as [P|P].
    - rewrite (Rabs_pos_eq (b2r Y)) by auto.
      assert (b2r Y <= rnd32 (b2r Y * b2r a)) as G.
      { apply rnd32_ge_r; auto. replace (b2r Y) with (b2r Y * 1) at 1 by ring. apply Rmult_le_compat_l; auto. }
      rewrite Rabs_pos_eq by lra. exact G.
    - rewrite (Rabs_left (b2r Y)) by auto.
      assert (rnd32 (b2r Y * b2r a) <= b2r Y) as G.
      { apply rnd32_le_r; auto.
        replace (b2r Y) with (b2r Y * 1) at 2 by ring. apply Rmult_le_compat_neg_l; lra. }
      rewrite Rabs_left by lra. lra.
  Qed.

  Lemma rotate_back : forall X Y fx fy d, Rabs fx <= 12 -> Rabs fy <= 12 ->
    Rabs (fy * c - fx * s - Y) <= d -> Rabs (fy * s + fx * c - X) <= d ->
    Rabs X <= / 512 -> Rabs Y <= / 512 -> d <= / 10000 ->
    Rabs fx <= 48 / 10000 /\ Rabs fy <= 48 / 10000.
  Proof.
    intros X Y fx fy d Hfx Hfy HY HX BX BY D. destruct T_c as (_ & Hc). destruct T_s as (_ & Hs). pose proof T_1 as Q.
    set (Y' := fy * c - fx * s). set (X' := fy * s + fx * c).
    assert (Rabs X' <= 206 / 100000) as AX.
    { replace X' with (X + (X' - X)) by ring. eapply Rle_trans; [apply Rabs_triang|]. unfold X'. lra. }
    assert (Rabs Y' <= 206 / 100000) as AY.
    { replace Y' with (Y + (Y' - Y)) by ring. eapply Rle_trans; [apply Rabs_triang|]. unfold Y'. lra. }
    assert (forall v, Rabs v <= 12 -> Rabs (v * (c * c + s * s - 1)) <= 12 * / 65536) as K.
    { intros v Hv. rewrite Rabs_mult. apply Rmult_le_compat; auto using Rabs_pos. }
    split.
    - replace fx with (X' * c - Y' * s - fx * (c * c + s * s - 1)) by (unfold X', Y'; ring).
      assert (Rabs (X' * c - Y' * s) <= 206 / 100000 + 206 / 100000).
      { apply abs_sub; apply abs_mul1; auto. }
      eapply Rle_trans; [apply abs_sub; [exact H|apply K; auto]|lra].
    - replace fy with (X' * s + Y' * c - fy * (c * c + s * s - 1)) by (unfold X', Y'; ring).
      assert (Rabs (X' * s + Y' * c) <= 206 / 100000 + 206 / 100000).
      { apply abs_add; apply abs_mul1; auto. }
      eapply Rle_trans; [apply abs_sub; [exact H|apply K; auto]|lra].
  Qed.

  Lemma bd_of_abs : forall x M k, fin x -> Rabs (b2r x) <= M -> M <= bpow radix2 k -> bd x k.
  Proof. intros. split; auto. lra. Qed.

  Lemma aa_ok : forall xp yp x y a oor aa,
    fin x -> fin y -> (0 <= xp <= 63)%Z -> (0 <= yp <= 63)%Z -> bd x 20 -> bd y 20 ->
    Rabs (b2r (fsub x (f_of_Z xp))) <= 8 -> Rabs (b2r (fsub y (f_of_Z yp))) <= 8 ->
    bd a 20 -> 1 <= b2r a -> bd oor 9 -> / 10 <= b2r oor ->
    nonneg_f (calculate_rr_antialiased xp yp x y a sn cs oor aa).
  Proof.
    intros xp yp x y a oor aa Fx Fy Hxp Hyp Bx By HR HB Ba La Bo Lo.
    pose proof T as (Bc & Bs & _). cbn [fst snd] in Bc, Bs.
    destruct T_c as (Fc & Hc). destruct T_s as (Fs & Hs). pose proof T_1 as Q1.
    assert (nn oor) as No by (unfold nn; lra).
    unfold calculate_rr_antialiased.
    assert (forall p v, (0 <= p <= 63)%Z -> bd v 20 -> bd (fsub v (f_of_Z p)) 21) as K.
    { intros p v Hp Bv. change 21%Z with (20 + 1)%Z. apply bd_sub; auto; [|lia].
      apply bd_of_Z; lia. }
    assert (fin (fsub x (f_of_Z xp))) as Fr by (apply (K xp x); auto).
    assert (fin (fsub y (f_of_Z yp))) as Fb by (apply (K yp y); auto).
    set (right := fsub x (f_of_Z xp)) in *. set (bottom := fsub y (f_of_Z yp)) in *.
    set (pcx := fsub right fhalf). set (pcy := fsub bottom fhalf).
    destruct f1_val as (V1 & F1). destruct f0_val as (V0 & F0).
    assert (ap pcx (b2r right - / 2) eta /\ ap pcy (b2r bottom - / 2) eta) as (Apx & Apy).
    { destruct fhalf_val as (VH & FH). rewrite <- VH.
      split; eapply ap_weak; try (apply ap_sub; try apply ap_self; auto; rewrite VH); try (unfold eta; lra).
      - assert (Rabs (b2r right - / 2) <= 8 + / 2) by (apply abs_sub; auto; rewrite Rabs_pos_eq; lra). lra.
      - assert (Rabs (b2r bottom - / 2) <= 8 + / 2) by (apply abs_sub; auto; rewrite Rabs_pos_eq; lra). lra. }
    assert (fin pcx /\ Rabs (b2r pcx) <= 9) as (Fpx & Hpx).
    { destruct Apx as (F & H). split; auto. apply Rabs_le_inv in H, HR. unfold eta in H. apply Rabs_le. lra. }
    assert (fin pcy /\ Rabs (b2r pcy) <= 9) as (Fpy & Hpy).
    { destruct Apy as (F & H). split; auto. apply Rabs_le_inv in H, HB. unfold eta in H. apply Rabs_le. lra. }
    pose proof (closest_ap pcx pcy Fpx Fpy Hpx Hpy) as CA. cbv zeta in CA.
    set (inside := (flt (fsub right f1) f0 && flt f0 right && flt (fsub bottom f1) f0 && flt f0 bottom)%bool).
    destruct (closest_point_to_line cs sn pcx pcy) as (qx, qy) eqn:CE. cbn [fst snd] in CA.
    destruct CA as (Aqx & Aqy).
    destruct (clamp_axis qx right (proj1 Aqx) Fr HR) as (AXx & Fnx & Hnx).
    destruct (clamp_axis qy bottom (proj1 Aqy) Fb HB) as (AXy & Fny & Hny).
    set (nx := clampf qx (fsub right f1) right) in *. set (ny := clampf qy (fsub bottom f1) bottom) in *.
    fold pcx in AXx. fold pcy in AXy.
    set (N := if inside then (f0, f0, f0) else (nx, ny, fmul (calculate_r_sample nx ny a sn cs) oor)).
    assert (bpow radix2 4 = 16) as P16 by reflexivity.
    assert (bd nx 4) as Bnx by (apply (bd_of_abs nx 10); auto; rewrite P16; lra).
    assert (bd ny 4) as Bny by (apply (bd_of_abs ny 10); auto; rewrite P16; lra).
    destruct (r_sample_ok nx ny a sn cs 4 Bnx Bny Ba Bs Bc) as (X3 & X4); [lia|].
    assert (bd (fst (fst N)) 4 /\ bd (snd (fst N)) 4 /\ bd (snd N) 104 /\ nn (snd N) /\
            (inside = true -> b2r (snd N) = 0)) as (N1 & N2 & N3 & N4 & N5).
    { unfold N. destruct inside; cbn [fst snd].
      - pose proof bd_zero as Z. split; [apply bd_weak with 0%Z; [exact Z|lia]|].
        split; [apply bd_weak with 0%Z; [exact Z|lia]|].
        split; [apply bd_weak with 0%Z; [exact Z|lia]|]. split; [unfold nn; rewrite V0; lra|]. auto.
      - split; auto. split; auto. split.
        + apply (bd_weak _ (51 + 9)); [apply bd_mul; auto; lia|lia].
        + split; [|discriminate]. eapply mul_nn; [exact X3|exact Bo|lia|auto|auto]. }
    destruct N as ((nrx, nry), rr_near) eqn:EN. cbn [fst snd] in *.
    rewrite (flt_spec f1 rr_near) by (auto; apply N3). rewrite V1.
    destruct (Rlt_bool_spec 1 (b2r rr_near)) as [L|L].
    { left. split; [apply N3|apply N4]. }
    set (sgn := sign_point_in_line pcx pcy cs (fopp sn)).
    set (FAR := if flt sgn f0
        then (fsub nrx (fmul sn rad_area_1), fadd nry (fmul cs rad_area_1))
        else (fadd nrx (fmul sn rad_area_1), fsub nry (fmul cs rad_area_1))).
    assert (bd (fst FAR) 5 /\ bd (snd FAR) 5) as (R1 & R2).
    { assert (bd (fmul sn rad_area_1) 4) as Y1 by (apply (bd_weak _ (0 + 0)); [apply bd_mul; auto using rad_area_ok; lia|lia]).
      assert (bd (fmul cs rad_area_1) 4) as Y2 by (apply (bd_weak _ (0 + 0)); [apply bd_mul; auto using rad_area_ok; lia|lia]).
      change 5%Z with (4 + 1)%Z.
      unfold FAR. destruct (flt sgn f0); cbn [fst snd]; split; first [apply bd_add|apply bd_sub]; auto; lia. }
    destruct FAR as (fx, fy) eqn:EF. cbn [fst snd] in R1, R2.
    destruct (r_sample_ok fx fy a sn cs 5 R1 R2 Ba Bs Bc) as (X5 & X6); [lia|].
    change (2 * 5 + 43)%Z with 53%Z in X5.
    assert (bd (fmul (calculate_r_sample fx fy a sn cs) oor) 110) as G1 by (apply (bd_weak _ (53 + 9)); [apply bd_mul; auto; lia|lia]).
    assert (nn (fmul (calculate_r_sample fx fy a sn cs) oor)) as G2 by (eapply mul_nn; [exact X5|exact Bo|lia|auto|auto]).
    unfold nn in N4.
    destruct (aa_tail_ok rr_near (fmul (calculate_r_sample fx fy a sn cs) oor) aa (calculate_r_sample fx fy a sn cs) (proj1 N3)) as [(P & Q)|(P & Q & W)]; auto.
    { left. split; [apply P|exact Q]. }
    exfalso.
    (* the degenerate configuration: contradiction *)
    assert (inside = false) as IN by (destruct inside; auto; rewrite N5 in P by auto; lra).
    unfold N in EN. rewrite IN in EN. injection EN as <- <- _.
    (* the far sample is tiny *)
    assert (b2r (calculate_r_sample fx fy a sn cs) <= bpow radix2 (-19)) as SM.
    { destruct (Rle_lt_dec (b2r (calculate_r_sample fx fy a sn cs)) (bpow radix2 (-19))) as [|G]; auto. exfalso.
      destruct (fmul_spec (calculate_r_sample fx fy a sn cs) oor (proj1 X5) (proj1 Bo)) as (E & _).
      { rewrite Rabs_mult. destruct X5 as (_ & X5), Bo as (_ & Bo).
        apply Rle_trans with (bpow radix2 53 * bpow radix2 9); [apply Rmult_le_compat; auto using Rabs_pos|].
        rewrite <- bpow_plus. apply bpow_le. lia. }
      rewrite E in Q. assert (bpow radix2 (-23) <= rnd32 (b2r (calculate_r_sample fx fy a sn cs) * b2r oor)) as G3.
      { apply rnd32_ge_r; [apply rep32_bpow; lia|]. apply Rle_trans with (bpow radix2 (-19) * / 10); [simpl; lra|].
        apply Rmult_le_compat; try lra. apply bpow_ge_0. }
      change (bpow radix2 (-23)) with (/ 8388608) in G3. lra. }
    destruct (sample_small fx fy a 5 R1 R2 ltac:(lia) Ba La SM) as (SY & SX).
    change (bpow radix2 (-9)) with (/ 512) in SY, SX.
    (* approximations of the far point *)
    destruct (lit24 rad_area_1 9465530%positive _ ltac:(vm_compute; reflexivity) eq_refl) as (ER & FR).
    assert (b2r rad_area_1 = rho) as RHO by (rewrite ER; unfold rho; lra).
    assert (Rabs (b2r rad_area_1) <= 1) as HR1 by (rewrite RHO; unfold rho; apply Rabs_le; lra).
    assert (ap (fmul sn rad_area_1) (s * rho) eta) as As.
    { rewrite <- RHO. eapply ap_weak; [apply ap_mul; [apply ap_self|..]; auto; fold s; lra|lra]. }
    assert (ap (fmul cs rad_area_1) (c * rho) eta) as Ac.
    { rewrite <- RHO. eapply ap_weak; [apply ap_mul; [apply ap_self|..]; auto; fold c; lra|lra]. }
    assert (Rabs (s * rho) <= 1) as Msr by (apply abs_mul1; auto; rewrite <- RHO; auto).
    assert (Rabs (c * rho) <= 1) as Mcr by (apply abs_mul1; auto; rewrite <- RHO; auto).
    assert (Fin : fin fx /\ fin fy) by (split; [apply R1|apply R2]). destruct Fin as (Ffx & Ffy).
    set (sg := if flt sgn f0 then 1 else -1).
    assert (Rabs (b2r fx - (b2r nx - sg * (s * rho))) <= 2 * eta /\ Rabs (b2r fy - (b2r ny + sg * (c * rho))) <= 2 * eta) as (AF1 & AF2).
    { assert (Rabs (b2r nx - s * rho) <= 10 + 1) by (apply abs_sub; auto).
      assert (Rabs (b2r nx + s * rho) <= 10 + 1) by (apply abs_add; auto).
      assert (Rabs (b2r ny - c * rho) <= 10 + 1) by (apply abs_sub; auto).
      assert (Rabs (b2r ny + c * rho) <= 10 + 1) by (apply abs_add; auto).
      assert (0 < eta < / 1000) by (unfold eta; lra).
      unfold FAR, sg in *. destruct (flt sgn f0); injection EF as <- <-.
      - split.
        + assert (ap (fsub nx (fmul sn rad_area_1)) (b2r nx - s * rho) (0 + eta + eta)) as (_ & A) by (apply ap_sub; auto; [apply ap_self; auto|lra]).
          replace (b2r nx - 1 * (s * rho)) with (b2r nx - s * rho) by ring. lra.
        + assert (ap (fadd ny (fmul cs rad_area_1)) (b2r ny + c * rho) (0 + eta + eta)) as (_ & A) by (apply ap_add; auto; [apply ap_self; auto|lra]).
          replace (b2r ny + 1 * (c * rho)) with (b2r ny + c * rho) by ring. lra.
      - split.
        + assert (ap (fadd nx (fmul sn rad_area_1)) (b2r nx + s * rho) (0 + eta + eta)) as (_ & A) by (apply ap_add; auto; [apply ap_self; auto|lra]).
          replace (b2r nx - -1 * (s * rho)) with (b2r nx + s * rho) by ring. lra.
        + assert (ap (fsub ny (fmul cs rad_area_1)) (b2r ny - c * rho) (0 + eta + eta)) as (_ & A) by (apply ap_sub; auto; [apply ap_self; auto|lra]).
          replace (b2r ny + -1 * (c * rho)) with (b2r ny - c * rho) by ring. lra. }
    assert (Rabs sg = 1) as Asg. { unfold sg. destruct (flt sgn f0); [apply Rabs_R1|rewrite Rabs_left; lra]. }
    assert (0 < eta <= / 500000) as ETA by (unfold eta; lra).
    assert (Rabs (b2r fx) <= 12) as Mfx.
    { replace (b2r fx) with (b2r nx - sg * (s * rho) + (b2r fx - (b2r nx - sg * (s * rho)))) by ring.
      eapply Rle_trans; [apply Rabs_triang|].
      assert (Rabs (b2r nx - sg * (s * rho)) <= 10 + 1); [|lra]. apply abs_sub; auto. rewrite Rabs_mult, Asg. lra. }
    assert (Rabs (b2r fy) <= 12) as Mfy.
    { replace (b2r fy) with (b2r ny + sg * (c * rho) + (b2r fy - (b2r ny + sg * (c * rho)))) by ring.
      eapply Rle_trans; [apply Rabs_triang|].
      assert (Rabs (b2r ny + sg * (c * rho)) <= 10 + 1); [|lra]. apply abs_add; auto. rewrite Rabs_mult, Asg. lra. }
    assert (Rabs (b2r fy * c) <= 12) by (apply abs_mul1; auto).
    assert (Rabs (b2r fx * s) <= 12) by (apply abs_mul1; auto).
    assert (Rabs (b2r fy * s) <= 12) by (apply abs_mul1; auto).
    assert (Rabs (b2r fx * c) <= 12) by (apply abs_mul1; auto).
    assert (ap (fsub (fmul fy cs) (fmul fx sn)) (b2r fy * c - b2r fx * s) (3 * eta)) as (_ & AY).
    { eapply ap_weak; [apply ap_sub; [apply ap_mul; [apply ap_self|..]|apply ap_mul; [apply ap_self|..]|]; auto; try lra|lra].
      fold c s. assert (Rabs (b2r fy * c - b2r fx * s) <= 12 + 12) by (apply abs_sub; auto). lra. }
    assert (ap (fadd (fmul fy sn) (fmul fx cs)) (b2r fy * s + b2r fx * c) (3 * eta)) as (_ & AX).
    { eapply ap_weak; [apply ap_add; [apply ap_mul; [apply ap_self|..]|apply ap_mul; [apply ap_self|..]|]; auto; try lra|lra].
      fold c s. assert (Rabs (b2r fy * s + b2r fx * c) <= 12 + 12) by (apply abs_add; auto). lra. }
    destruct (rotate_back (b2r (fadd (fmul fy sn) (fmul fx cs))) (b2r (fsub (fmul fy cs) (fmul fx sn))) (b2r fx) (b2r fy) (3 * eta)) as (Zx & Zy); auto.
    { rewrite <- Rabs_Ropp. eapply Rle_trans; [|exact AY]. apply Req_le. f_equal. ring. }
    { rewrite <- Rabs_Ropp. eapply Rle_trans; [|exact AX]. apply Req_le. f_equal. ring. }
    { lra. }
    (* so the clamped point is sg * rho * (s, -c) *)
    assert (Rabs (b2r nx - sg * (rho * s)) <= / 200) as NX.
    { replace (b2r nx - sg * (rho * s)) with (b2r fx - (b2r fx - (b2r nx - sg * (s * rho)))) by ring.
      unfold Rminus at 1. eapply Rle_trans; [apply Rabs_triang|]. rewrite Rabs_Ropp. lra. }
    assert (Rabs (b2r ny + sg * (rho * c)) <= / 200) as NY.
    { replace (b2r ny + sg * (rho * c)) with (b2r fy - (b2r fy - (b2r ny + sg * (c * rho)))) by ring.
      unfold Rminus at 1. eapply Rle_trans; [apply Rabs_triang|]. rewrite Rabs_Ropp. lra. }
    assert (1 - / 1000 <= c * c + s * s <= 1 + / 1000) as CS by (apply Rabs_le_inv in Q1; lra).
    (* the side test *)
    assert (ap sgn ((b2r pcx - c) * s - c * (b2r pcy + s)) (10 * eta)) as (Fsg & Hsg).
    { unfold sgn, sign_point_in_line.
      destruct (fopp_spec sn) as (EO & FO). specialize (FO Fs).
      destruct (fopp_spec (fopp sn)) as (EO2 & FO2). specialize (FO2 FO).
      assert (b2r (fopp (fopp sn)) = s) as EOO by (rewrite EO2, EO; unfold s; ring).
      assert (Rabs (b2r pcx - c) <= 9 + 1) as M1 by (apply abs_sub; auto).
      assert (Rabs (b2r pcy - - s) <= 9 + 1) as M2 by (apply abs_sub; auto; rewrite Rabs_Ropp; auto).
      assert (ap (fsub pcx cs) (b2r pcx - c) eta) as A1.
      { eapply ap_weak; [apply ap_sub; try apply ap_self; auto; fold c; lra|lra]. }
      assert (ap (fsub pcy (fopp sn)) (b2r pcy - - s) eta) as A2.
      { replace (- s) with (b2r (fopp sn)) by (rewrite EO; reflexivity).
        eapply ap_weak; [apply ap_sub; try apply ap_self; auto; rewrite EO; fold s; lra|lra]. }
      assert (ap (fmul (fsub pcx cs) (fopp (fopp sn))) ((b2r pcx - c) * s) (eta + eta)) as A3.
      { rewrite <- EOO. apply ap_mul; auto; [rewrite EOO; auto|lra]. }
      assert (ap (fmul cs (fsub pcy (fopp sn))) (c * (b2r pcy - - s)) (eta + eta)) as A4 by (apply ap_mul_l; auto; lra).
      replace (c * (b2r pcy + s)) with (c * (b2r pcy - - s)) by ring.
      eapply ap_weak; [apply ap_sub; [exact A3|exact A4|]|lra].
      assert (Rabs ((b2r pcx - c) * s) <= 9 + 1) by (apply abs_mul1; auto).
      assert (Rabs (c * (b2r pcy - - s)) <= 9 + 1) by (rewrite Rmult_comm; apply abs_mul1; auto).
      assert (Rabs ((b2r pcx - c) * s - c * (b2r pcy - - s)) <= (9 + 1) + (9 + 1)) by (apply abs_sub; auto). lra. }
    apply Rabs_le_inv in Hsg.
    destruct Aqx as (_ & Aqx). destruct Aqy as (_ & Aqy).
    assert (flt sgn f0 = Rlt_bool (b2r sgn) 0) as FS by (rewrite flt_spec, V0; auto).
    unfold sg in NX, NY. rewrite FS in NX, NY.
    destruct (Rlt_bool_spec (b2r sgn) 0) as [LT|GE].
    - destruct (side c s (b2r pcx) (b2r pcy) (b2r qx) (b2r qy) (b2r nx) (b2r ny)) as (S1 & S2); auto.
      { replace (rho * s) with (1 * (rho * s)) by ring. auto. }
      { replace (rho * c) with (1 * (rho * c)) by ring. auto. }
      apply Rabs_le_inv in S2. lra.
    - destruct (side c s (- b2r pcx) (- b2r pcy) (- b2r qx) (- b2r qy) (- b2r nx) (- b2r ny)) as (S1 & S2); auto.
      { replace (- b2r nx - rho * s) with (- (b2r nx - -1 * (rho * s))) by ring. rewrite Rabs_Ropp. auto. }
      { replace (- b2r ny + rho * c) with (- (b2r ny + -1 * (rho * c))) by ring. rewrite Rabs_Ropp. auto. }
      { replace (- b2r qx - (- b2r pcx * c + - b2r pcy * s) * c) with (- (b2r qx - (b2r pcx * c + b2r pcy * s) * c)) by ring. rewrite Rabs_Ropp. auto. }
      { replace (- b2r qy - (- b2r pcx * c + - b2r pcy * s) * s) with (- (b2r qy - (b2r pcx * c + b2r pcy * s) * s)) by ring. rewrite Rabs_Ropp. auto. }
      { replace (- b2r pcx - - b2r nx) with (- (b2r pcx - b2r nx)) by ring. apply axis_opp. auto. }
      { replace (- b2r pcy - - b2r ny) with (- (b2r pcy - b2r ny)) by ring. apply axis_opp. auto. }
      apply Rabs_le_inv in S2. lra.
  Qed.
End AA.
