(** Colour sampling: facts that hold for every value of [paint]. *)
From Verif Require Import Base F32 F32Proofs Blend BlendProofs Queue QueueProofs Plumb PlumbProofs Mask MaskProofs Dab DabProofs
  Sample SampleProofs SampleSpec SampleProofs2.
From Coq Require Import Reals Lra Psatz Permutation.
From Flocq Require Import Core.Core IEEE754.BinarySingleNaN.
Local Open Scope Z_scope.

(** what one sampled pixel adds to weight and alpha in the newer mode *)
Definition w_part (m : Z) : f32 := fdiv (f_of_Z m) (f_of_Z 32768).
Definition a_part (m pa : Z) : f32 := fdiv (fmul (f_of_Z m) (f_of_Z pa)) (f_of_Z 1073741824).

Section Inv.
  Variables (trig : trig_oracle) (fastpow : f32 -> f32 -> f32) (rand : nat -> Z).
  Variable I : f32 -> f32 -> Prop.

  Lemma take_wa : forall paint m p s, ac_w (take fastpow paint m p s) = fadd (ac_w s) (w_part m) /\
    ac_a (take fastpow paint m p s) = fadd (ac_a s) (a_part m (pa p)).
  Proof.
    intros. unfold take. fold (a_part m (pa p)). fold (w_part m).
    destruct (if flt f0 (fadd (a_part m (pa p)) (ac_a s)) then _ else _) as (fa, fb). destruct (ac_rgb s) as ((ar, ag), ab). split; reflexivity.
  Qed.

  Lemma acc_inv : forall paint interval threshold mem (sh : Z -> Z -> Z) l s s',
    Z.of_nat (length mem) = TILE_WORDS ->
    (forall ij, In ij l -> in_tile (fst ij) (snd ij)) ->
    (forall i j w a, In (i, j) l -> I w a ->
       I (fadd w (w_part (sh i j))) (fadd a (a_part (sh i j) (pa (pixel_at mem i j))))) ->
    I (ac_w s) (ac_a s) ->
    ofold (fun s ij => acc_px fastpow rand paint interval threshold mem s (4 * (64 * snd ij + fst ij)) (sh (fst ij) (snd ij))) l s = Ok s' ->
    I (ac_w s') (ac_a s').
  Proof.
    intros paint interval threshold mem sh l. induction l as [|(i, j) l IH]; intros s s' L T H H0 E.
    - cbn [ofold] in E. injection E as <-. auto.
    - cbn [ofold fst snd] in E. apply obind_ok in E. destruct E as (s1 & E1 & E).
      apply (IH s1 s'); auto; [intros; apply T; right; auto|intros; apply H; auto; right; auto|].
      unfold acc_px in E1. rewrite read_px_at in E1 by (auto; apply (T (i, j)); left; auto). cbn [obind] in E1.
      destruct (if ac_count s =? 0 then _ else _) as (hit, next). destruct (interval =? 0); [discriminate E1|].
      injection E1 as <-. cbn [ac_w ac_a]. destruct hit; auto.
      destruct (take_wa paint (sh i j) (pixel_at mem i j) s) as (-> & ->). apply H; auto. left; auto.
  Qed.

  Lemma sample_inv : forall x y radius paint interval rate seen s n s' n',
    Forall (fun tm => mem_ok (snd tm)) seen ->
    (forall t mem w a, In (t, mem) seen -> I w a ->
       I (fadd w (f_of_Z (over_tile (share trig x y radius t)))) (fadd a (f_of_Z (gathered (share trig x y radius) mem pa t)))) ->
    (forall t mem i j w a, In (t, mem) seen -> in_tile i j -> share trig x y radius t i j <> 0 -> I w a ->
       I (fadd w (w_part (share trig x y radius t i j))) (fadd a (a_part (share trig x y radius t i j) (pa (pixel_at mem i j))))) ->
    I (s_w s) (s_a s) ->
    ofold (sample_tile trig fastpow rand x y radius paint interval rate) seen (s, n) = Ok (s', n') ->
    I (s_w s') (s_a s').
  Proof.
    intros x y radius paint interval rate seen. induction seen as [|(t, mem) seen IH]; intros s n s' n' HM H1 H2 H0 E.
    - cbn [ofold] in E. injection E as <- _. auto.
    - inversion HM as [|? ? Hm HM']; subst. cbn [ofold] in E. apply obind_ok in E. destruct E as ((s1 & n1) & E1 & E).
      apply (IH s1 n1 s' n'); auto; [intros; apply H1; auto; right; auto|intros; eapply H2; eauto; right; auto|].
      unfold sample_tile in E1. cbn [fst snd] in E1. apply obind_ok in E1. destruct E1 as (mask & Em & E1).
      unfold get_color_pixels_accumulate in E1. destruct (flt paint f0).
      + rewrite (legacy_tile trig x y radius t mask mem s Em Hm) in E1. cbn [obind] in E1. injection E1 as <- _.
        cbn [s_w s_a]. apply H1; auto. left; auto.
      + apply obind_ok in E1. destruct E1 as (th & _ & E1). apply obind_ok in E1. destruct E1 as (t1 & Et & E1).
        destruct (sample_mask_decode _ _ _ _ _ _ Em) as (l & P & D). rewrite D in Et.
        destruct (counted_tile _ _ _ _ _ _ P) as (C & _).
        apply acc_inv in Et.
        * destruct (Spectral.spectral_to_rgb Color.mix64 (ac_spec t1)) as ((sr, sg), sb). destruct (ac_rgb t1) as ((ar, ag), ab).
          injection E1 as <- _. exact Et.
        * apply Hm.
        * intros ij Iij. apply C. auto.
        * intros i j w a Iij HI. destruct (C _ Iij) as (T & S1). cbn [fst snd] in *. apply (H2 t mem i j); auto; [left; auto|lia].
        * exact H0.
  Qed.
End Inv.

(** ** Values *)
Lemma sat_step : forall s v : f32, fin s -> fin v -> (0 <= b2r s <= IZR (2 ^ 57))%R -> (0 <= b2r v <= IZR (2 ^ 32))%R ->
  fin (fadd s v) /\ (0 <= b2r (fadd s v) <= IZR (2 ^ 57))%R /\ b2r (fadd s v) = rnd32 (b2r s + b2r v).
Proof.
  intros s v F Fv B Bv.
  destruct (fadd_spec s v) as (A & F'); auto.
  { rewrite Rabs_pos_eq by lra. pose proof bpow127_big.
    assert (IZR (2 ^ 57) + IZR (2 ^ 32) <= 1267650600228229401496703205376)%R by (rewrite <- plus_IZR; apply IZR_le; lia). lra. }
  split; auto. rewrite A. split; auto. split.
  - apply rnd32_ge_r; [apply rep32_0|lra].
  - rewrite <- sat57. apply rnd32_le. rewrite plus_IZR. lra.
Qed.

Lemma w_part_val : forall m, 0 <= m <= 65535 -> fin (w_part m) /\ b2r (w_part m) = (IZR m / 32768)%R.
Proof.
  intros m Hm. destruct (f_of_Z_exact m) as (Vm & Fm); [lia|]. destruct (f_of_Z_exact 32768) as (V & F); [lia|].
  assert (0 <= IZR m <= 65535)%R as B by (split; apply IZR_le; lia).
  unfold w_part. destruct (fdiv_spec (f_of_Z m) (f_of_Z 32768) Fm) as (E & F'); [rewrite V; lra| |].
  { rewrite Vm, V. rewrite Rabs_pos_eq by lra. pose proof bpow127_big. lra. }
  split; auto. rewrite E, Vm, V. apply rnd32_id.
  replace (IZR m / 32768)%R with (IZR m * bpow radix2 (-15))%R; [apply rep32_scaled; lia|]. simpl. lra.
Qed.

Lemma a_part_val : forall m p, 0 <= m <= 65535 -> 0 <= p <= 65535 -> fin (a_part m p) /\ (0 <= b2r (a_part m p) <= 4)%R.
Proof.
  intros m p Hm Hp. destruct (f_of_Z_exact m) as (Vm & Fm); [lia|]. destruct (f_of_Z_exact p) as (Vp & Fp); [lia|].
  assert (0 <= IZR m <= 65535)%R as B by (split; apply IZR_le; lia). assert (0 <= IZR p <= 65535)%R as B' by (split; apply IZR_le; lia).
  assert (0 <= IZR m * IZR p <= 65535 * 65535)%R as BP by (split; [apply Rmult_le_pos; lra|apply Rmult_le_compat; lra]).
  unfold a_part. pose proof bpow127_big.
  destruct (fmul_spec (f_of_Z m) (f_of_Z p) Fm Fp) as (E & F). { rewrite Vm, Vp. rewrite Rabs_pos_eq by lra. lra. }
  rewrite Vm, Vp in E.
  assert (0 <= b2r (fmul (f_of_Z m) (f_of_Z p)) <= 4294967296)%R as BM.
  { rewrite E. split; [apply rnd32_ge_r; [apply rep32_0|lra]|]. apply rnd32_le_r; [|lra].
    change 4294967296%R with (IZR (2 ^ 32)). rewrite <- bpow_Z by lia. apply rep32_bpow. lia. }
  destruct (f_of_Z_spec 1073741824) as (V3 & F3). { rewrite Rabs_pos_eq by lra. lra. }
  assert (b2r (f_of_Z 1073741824) = 1073741824%R) as V30.
  { rewrite V3. apply rnd32_id. change 1073741824%R with (IZR (2 ^ 30)). rewrite <- bpow_Z by lia. apply rep32_bpow. lia. }
  destruct (fdiv_spec (fmul (f_of_Z m) (f_of_Z p)) (f_of_Z 1073741824) F) as (E2 & F2); [rewrite V30; lra| |].
  { rewrite V30. rewrite Rabs_pos_eq by lra. lra. }
  split; auto. rewrite E2, V30. split; [apply rnd32_ge_r; [apply rep32_0|lra]|].
  apply rnd32_le_r; [apply (rep32_IZR 4); lia|lra].
Qed.

Lemma a_part_full : forall m, 1 <= m <= 65535 -> a_part m 32768 = w_part m.
Proof.
  intros m Hm. destruct (w_part_val m) as (Fw & Vw); [lia|]. destruct (a_part_val m 32768) as (Fa & _); [lia|lia|].
  destruct (f_of_Z_exact m) as (Vm & Fm); [lia|]. destruct (f_of_Z_exact 32768) as (Vp & Fp); [lia|].
  assert (1 <= IZR m <= 65535)%R as B by (split; apply IZR_le; lia). pose proof bpow127_big.
  assert (b2r (a_part m 32768) = IZR m / 32768)%R as V.
  { unfold a_part.
    destruct (fmul_spec (f_of_Z m) (f_of_Z 32768) Fm Fp) as (E & F). { rewrite Vm, Vp. rewrite Rabs_pos_eq by lra. lra. }
    rewrite Vm, Vp in E. assert (rnd32 (IZR m * 32768) = IZR m * 32768)%R as EM.
    { apply rnd32_id. replace 32768%R with (bpow radix2 15) by (simpl; lra). apply rep32_scaled; lia. }
    rewrite EM in E. destruct (f_of_Z_spec 1073741824) as (V3 & F3). { rewrite Rabs_pos_eq by lra. lra. }
    assert (b2r (f_of_Z 1073741824) = 1073741824%R) as V30.
    { rewrite V3. apply rnd32_id. change 1073741824%R with (IZR (2 ^ 30)). rewrite <- bpow_Z by lia. apply rep32_bpow. lia. }
    destruct (fdiv_spec (fmul (f_of_Z m) (f_of_Z 32768)) (f_of_Z 1073741824) F) as (E2 & F2); [rewrite V30; lra| |].
    { rewrite E, V30. rewrite Rabs_pos_eq by lra. lra. }
    rewrite E2, E, V30. replace (IZR m * 32768 / 1073741824)%R with (IZR m * bpow radix2 (-15))%R by (simpl; lra).
    rewrite rnd32_id by (apply rep32_scaled; lia). simpl. lra. }
  apply same_float; auto; rewrite V; [symmetry; exact Vw|lra].
Qed.

Lemma pos_sign : forall x : f32, fin x -> (0 < b2r x)%R -> exists m e H, x = B754_finite false m e H.
Proof.
  intros [s|s| |s m e H] F P; try discriminate F; [exfalso; change (0 < 0)%R in P; lra|].
  destruct s; [|eauto]. exfalso. change (0 < F2R (Float radix2 (Z.neg m) e))%R in P.
  assert (F2R (Float radix2 (Z.neg m) e) < 0)%R by (apply F2R_lt_0; reflexivity). lra.
Qed.

Lemma a_part_zero : forall m, 1 <= m <= 65535 -> a_part m 0 = f0.
Proof.
  intros m Hm. destruct (f_of_Z_exact m) as (Vm & Fm); [lia|].
  destruct (pos_sign (f_of_Z m) Fm) as (mm & e & H & E). { rewrite Vm. apply (IZR_lt 0). lia. }
  unfold a_part. rewrite E. change (f_of_Z 0) with (B754_zero false : f32). 
  change (fmul (B754_finite false mm e H) (B754_zero false)) with (B754_zero false : f32).
  assert (fdiv (B754_zero false) (f_of_Z 1073741824) = f0) as ->; [|reflexivity]. apply B2SF_inj. vm_compute. reflexivity.
Qed.

Lemma zero_div : forall w, flt f0 w = true -> fdiv f0 w = f0.
Proof.
  intros [s|s| |s m e H] L; try discriminate L; destruct s; try discriminate L; reflexivity.
Qed.
Lemma clamp_f0 : clampf f0 f0 f1 = f0. Proof. apply B2SF_inj. vm_compute. reflexivity. Qed.
Lemma clamp_f1 : clampf f1 f0 f1 = f1. Proof. apply B2SF_inj. vm_compute. reflexivity. Qed.
Lemma self_div : forall w : f32, fin w -> (0 < b2r w)%R -> fdiv w w = f1.
Proof.
  intros w F P. destruct f1_val as (V1 & F1).
  destruct (fdiv_spec w w F) as (E & F'); [lra| |].
  { unfold Rdiv. rewrite Rinv_r by lra. rewrite Rabs_R1. pose proof bpow127_big. lra. }
  apply same_float; auto.
  - rewrite E, V1. unfold Rdiv. rewrite Rinv_r by lra. apply rnd32_id. apply (rep32_IZR 1). lia.
  - rewrite E. unfold Rdiv. rewrite Rinv_r by lra. rewrite rnd32_id by (apply (rep32_IZR 1); lia). lra.
Qed.
