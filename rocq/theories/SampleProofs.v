(** Lemmas about colour sampling (Sample.v); the theorems are in P_Sample.v. *)
From Verif Require Import Base F32 F32Proofs Blend BlendProofs Queue Plumb Mask MaskProofs Dab Sample.
From Coq Require Import Reals Lra Psatz Permutation.
From Flocq Require Import Core.Core IEEE754.BinarySingleNaN Relative.
Local Open Scope Z_scope.

(** ** Sums over pixels *)
Definition zsum {A} (f : A -> Z) (l : list A) : Z := fold_right (fun a n => f a + n) 0 l.

Lemma zsum_perm : forall A (f : A -> Z) l l', Permutation l l' -> zsum f l = zsum f l'.
Proof. induction 1; cbn [zsum fold_right] in *; unfold zsum in *; lia. Qed.
Lemma zsum_filter : forall A (f : A -> Z) g l, (forall a, In a l -> g a = false -> f a = 0) ->
  zsum f (filter g l) = zsum f l.
Proof.
  induction l; intros H; [reflexivity|]. cbn [filter zsum fold_right].
  assert (zsum f (filter g l) = zsum f l) as E by (apply IHl; intros; apply H; [right|]; auto).
  destruct (g a) eqn:G; cbn [zsum fold_right]; fold (zsum f (filter g l)); fold (zsum f l); rewrite ?E; auto.
  rewrite (H a) by (auto; left; auto). lia.
Qed.
Lemma zsum_ext : forall A (f g : A -> Z) l, (forall a, In a l -> f a = g a) -> zsum f l = zsum g l.
Proof.
  induction l; intros H; [reflexivity|]. cbn [zsum fold_right]. fold (zsum f l). fold (zsum g l).
  rewrite (H a), IHl; auto. { intros; apply H; right; auto. } left; auto.
Qed.
Lemma zsum_le : forall A (f g : A -> Z) l, (forall a, In a l -> f a <= g a) -> zsum f l <= zsum g l.
Proof.
  induction l; intros H; [reflexivity|]. cbn [zsum fold_right]. fold (zsum f l). fold (zsum g l).
  pose proof (H a (or_introl eq_refl)). assert (zsum f l <= zsum g l) by (apply IHl; intros; apply H; right; auto). lia.
Qed.
Lemma zsum_add : forall A (f g : A -> Z) l, zsum (fun a => f a + g a) l = zsum f l + zsum g l.
Proof.
  induction l; [reflexivity|]. cbn [zsum fold_right]. fold (zsum f l). fold (zsum g l). fold (zsum (fun a => f a + g a) l). lia.
Qed.
Lemma zsum_mul : forall A (f : A -> Z) k l, zsum (fun a => k * f a) l = k * zsum f l.
Proof.
  induction l; [cbn; lia|]. cbn [zsum fold_right]. fold (zsum f l). fold (zsum (fun a => k * f a) l). lia.
Qed.
Lemma zsum_const : forall A k (l : list A), zsum (fun _ => k) l = k * Z.of_nat (length l).
Proof.
  induction l; [cbn; lia|]. cbn [zsum fold_right length]. fold (zsum (fun _ : A => k) l). lia.
Qed.
Lemma zsum_nonneg : forall A (f : A -> Z) l, (forall a, In a l -> 0 <= f a) -> 0 <= zsum f l.
Proof.
  intros. replace 0 with (zsum (fun _ : A => 0) l) by (rewrite zsum_const; lia). apply zsum_le. auto.
Qed.
Lemma zsum_app : forall A (f : A -> Z) l l', zsum f (l ++ l') = zsum f l + zsum f l'.
Proof.
  induction l; intros; [reflexivity|]. cbn [app zsum fold_right]. fold (zsum f (l ++ l')). fold (zsum f l). rewrite IHl. lia.
Qed.
Lemma zsum_map : forall A B (f : B -> Z) (g : A -> B) l, zsum f (map g l) = zsum (fun a => f (g a)) l.
Proof. induction l; [reflexivity|]. cbn [map zsum fold_right]. fold (zsum f (map g l)). rewrite IHl. reflexivity. Qed.

(** ** The integer accumulators of one tile *)
Definition at_q (xy : Z * Z) : Z := 4 * (64 * snd xy + fst xy).

Lemma pixel_words : forall mem x y, Z.of_nat (length mem) = TILE_WORDS -> words_ok mem -> in_tile x y ->
  let p := pixel_at mem x y in
  0 <= pr p <= 65535 /\ 0 <= pg p <= 65535 /\ 0 <= pb p <= 65535 /\ 0 <= pa p <= 65535.
Proof.
  intros mem x y L W T p. unfold words_ok in W. rewrite Forall_forall in W.
  assert (forall i, 0 <= i < 4 -> 0 <= nth (Z.to_nat (4 * (64 * y + x) + i)) mem 0 <= 65535) as P.
  { intros i Hi. apply W. apply nth_In. unfold TILE_WORDS in L. destruct T as (Tx & Ty). apply Nat2Z.inj_lt. rewrite L, Z2Nat.id; lia. }
  pose proof (P 0 ltac:(lia)). pose proof (P 1 ltac:(lia)). pose proof (P 2 ltac:(lia)). pose proof (P 3 ltac:(lia)).
  unfold p, pixel_at. cbn [pr pg pb pa]. auto.
Qed.

Definition part (V : Z -> Z -> Z) (mem : list Z) (c : pixel -> Z) (xy : Z * Z) : Z :=
  V (fst xy) (snd xy) * c (pixel_at mem (fst xy) (snd xy)) / ONE.

Lemma ch_bound : forall v c, 0 <= v <= 65535 -> 0 <= c <= 65535 -> 0 <= v * c / ONE <= 131068 /\ u32 (v * c) = v * c.
Proof.
  intros v c Hv Hc. assert (0 <= v * c <= 65535 * 65535) by nia. unfold ONE. split.
  - split; [apply Z.div_pos; lia|]. apply Z.lt_succ_r, Z.div_lt_upper_bound; lia.
  - unfold u32. apply Z.mod_small. lia.
Qed.

Lemma legacy_cells : forall V mem l k s,
  Z.of_nat (length mem) = TILE_WORDS -> words_ok mem ->
  (forall xy, In xy l -> in_tile (fst xy) (snd xy) /\ 0 <= V (fst xy) (snd xy) <= 65535) ->
  0 <= k -> k + Z.of_nat (length l) <= 4096 ->
  0 <= i_w s <= 65535 * k -> 0 <= i_r s <= 131068 * k -> 0 <= i_g s <= 131068 * k ->
  0 <= i_b s <= 131068 * k -> 0 <= i_a s <= 131068 * k ->
  ofold (fun s xy => legacy_px mem s (4 * (64 * snd xy + fst xy)) (V (fst xy) (snd xy))) l s =
  Ok (mkISums (i_w s + zsum (fun xy => V (fst xy) (snd xy)) l) (i_r s + zsum (part V mem pr) l)
              (i_g s + zsum (part V mem pg) l) (i_b s + zsum (part V mem pb) l) (i_a s + zsum (part V mem pa) l)).
Proof.
  induction l as [|(x, y) l IH]; intros k s L W HI K0 KL Bw Br Bg Bb Ba.
  - cbn [ofold zsum fold_right]. rewrite !Z.add_0_r. destruct s; reflexivity.
  - destruct (HI (x, y) (or_introl eq_refl)) as (T & HV). cbn [fst snd] in T, HV.
    destruct (pixel_words mem x y L W T) as (Pr & Pg & Pb & Pa).
    cbn [ofold fst snd]. unfold legacy_px at 1. rewrite read_px_at by auto. cbn [obind].
    destruct (ch_bound _ _ HV Pr) as (Cr & ->). destruct (ch_bound _ _ HV Pg) as (Cg & ->).
    destruct (ch_bound _ _ HV Pb) as (Cb & ->). destruct (ch_bound _ _ HV Pa) as (Ca & ->).
    cbn [length] in KL.
    assert (forall a b, 0 <= a <= 131068 * k -> 0 <= b <= 131068 -> u32 (a + b) = a + b) as U.
    { intros. unfold u32. apply Z.mod_small. lia. }
    rewrite !U by lia. rewrite (IH (k + 1)); cbn [i_w i_r i_g i_b i_a]; auto; try lia.
    + unfold zsum. cbn [fold_right]. unfold part. cbn [fst snd]. f_equal. f_equal; lia.
    + intros; apply HI; right; auto.
Qed.

(** ** Sums in float *)
Definition facc (l : list Z) : f32 := fold_left (fun s z => fadd s (f_of_Z z)) l f0.
Definition u24 : R := (/ 16777216)%R.

Lemma f_of_Z_spec : forall z, (Rabs (IZR z) <= bpow radix2 127)%R ->
  b2r (f_of_Z z) = rnd32 (IZR z) /\ fin (f_of_Z z).
Proof.
  intros. assert (F2R (Float radix2 z 0) = IZR z) as E by (unfold F2R; simpl; ring).
  destruct (norm_spec 24 128 prec24 emax24 z 0 false) as (A & B).
  { rewrite E. auto. }
  rewrite E in A. split; auto.
Qed.

Lemma rnd32_rel : forall x, (bpow radix2 (-126) <= Rabs x)%R -> (Rabs (rnd32 x - x) <= u24 * Rabs x)%R.
Proof.
  intros x H.
  pose proof (relative_error_N_FLT radix2 (-149) 24 eq_refl (fun x => negb (Z.even x)) x H) as E.
  change (Rabs (rnd32 x - x) <= / 2 * bpow radix2 (- 24 + 1) * Rabs x)%R in E.
  replace (/ 2 * bpow radix2 (-24 + 1))%R with u24 in E; auto.
  unfold u24. simpl. lra.
Qed.

Lemma rnd32_rel_pos : forall x, (bpow radix2 (-126) <= x)%R ->
  (x * (1 - u24) <= rnd32 x <= x * (1 + u24))%R.
Proof.
  intros x H. pose proof (bpow_gt_0 radix2 (-126)).
  pose proof (rnd32_rel x) as E. rewrite Rabs_pos_eq in E by lra. specialize (E H).
  apply Rabs_le_inv in E. lra.
Qed.

Lemma bpow127_big : (1267650600228229401496703205376 <= bpow radix2 127)%R.   (* 2^100 *)
Proof. rewrite bpow_Z by lia. apply IZR_le. vm_compute. discriminate. Qed.
Lemma bpow126_small : (bpow radix2 (-126) <= / 2)%R.
Proof. change (/ 2)%R with (bpow radix2 (-1)). apply bpow_le. lia. Qed.

Lemma sat57 : rnd32 (IZR (2 ^ 57 + 2 ^ 32)) = IZR (2 ^ 57).
Proof.
  assert (fin (f_of_Z (2 ^ 57)) /\ b2r (f_of_Z (2 ^ 57)) = IZR (2 ^ 57)) as (F1' & V1).
  { destruct (f_of_Z_spec (2 ^ 57)) as (A & B). { pose proof bpow127_big. rewrite Rabs_pos_eq; [|apply IZR_le; lia].
      eapply Rle_trans; [|exact H]. apply IZR_le. lia. }
    split; auto. rewrite A. apply rnd32_id. rewrite <- bpow_Z by lia. apply rep32_bpow. lia. }
  destruct (f_of_Z_spec (2 ^ 57 + 2 ^ 32)) as (A & B).
  { pose proof bpow127_big. rewrite Rabs_pos_eq; [|apply IZR_le; lia]. eapply Rle_trans; [|exact H]. apply IZR_le. lia. }
  rewrite <- A, <- V1. f_equal. apply B2SF_inj. vm_compute. reflexivity.
Qed.

Definition small_ints (l : list Z) : Prop := Forall (fun z => 0 <= z <= 2 ^ 32) l.

Lemma f_of_small : forall z, 0 <= z <= 2 ^ 32 ->
  fin (f_of_Z z) /\ (0 <= b2r (f_of_Z z) <= IZR (2 ^ 32))%R /\ (z <> 0 -> (1 <= b2r (f_of_Z z))%R) /\
  (IZR z * (1 - u24) <= b2r (f_of_Z z) <= IZR z * (1 + u24))%R /\ b2r (f_of_Z z) = rnd32 (IZR z).
Proof.
  intros z Hz. assert (0 <= IZR z <= IZR (2 ^ 32))%R as B by (split; apply IZR_le; lia).
  destruct (f_of_Z_spec z) as (A & F).
  { pose proof bpow127_big. rewrite Rabs_pos_eq by lra. eapply Rle_trans; [apply B|]. eapply Rle_trans; [|exact H]. apply IZR_le. lia. }
  split; auto. rewrite A. split; [|split; [|split]]; auto.
  - split.
    + apply rnd32_ge_r; [apply (rep32_IZR 0); lia|apply B].
    + apply rnd32_le_r; [|apply B]. rewrite <- bpow_Z by lia. apply rep32_bpow. lia.
  - intros NZ. apply rnd32_ge_r; [apply (rep32_IZR 1); lia|]. apply IZR_le. lia.
  - destruct (Z.eq_dec z 0) as [->|NZ].
    + rewrite rnd32_id by (apply (rep32_IZR 0); lia). lra.
    + apply rnd32_rel_pos. pose proof bpow126_small. assert (1 <= IZR z)%R by (apply IZR_le; lia). lra.
Qed.

(** one more tile *)
Lemma facc_step : forall s z, fin s -> (0 <= b2r s <= IZR (2 ^ 57))%R -> 0 <= z <= 2 ^ 32 ->
  let s' := fadd s (f_of_Z z) in
  fin s' /\ (0 <= b2r s' <= IZR (2 ^ 57))%R /\ b2r s' = rnd32 (b2r s + b2r (f_of_Z z)).
Proof.
  intros s z F B Hz s'. destruct (f_of_small z Hz) as (Fz & Bz & _ & _).
  destruct (fadd_spec s (f_of_Z z)) as (A & F'); auto.
  { rewrite Rabs_pos_eq by lra. pose proof bpow127_big.
    assert (IZR (2 ^ 57) + IZR (2 ^ 32) <= 1267650600228229401496703205376)%R by (rewrite <- plus_IZR; apply IZR_le; lia). lra. }
  unfold s'. split; auto. rewrite A. split; auto. split.
  - apply rnd32_ge_r; [apply (rep32_IZR 0); lia|lra].
  - rewrite <- sat57. apply rnd32_le. rewrite plus_IZR. lra.
Qed.

Lemma rep32_0 : rep32 0. Proof. apply (rep32_IZR 0). lia. Qed.
Lemma rnd32_0 : rnd32 0 = 0%R. Proof. apply rnd32_id, rep32_0. Qed.
Lemma pow_le1 : forall x k, (0 <= x <= 1)%R -> (x ^ k <= 1)%R.
Proof. intros. apply Rle_trans with (1 ^ k)%R; [apply pow_incr; auto|rewrite pow1; lra]. Qed.
Lemma u24_lt : (0 < u24 < 1 / 2)%R. Proof. unfold u24. lra. Qed.

Lemma facc_gen : forall l s S k, small_ints l -> fin s -> (0 <= b2r s <= IZR (2 ^ 57))%R -> 0 <= S -> (1 <= k)%nat ->
  (IZR S * (1 - u24) ^ k <= b2r s <= IZR S * (1 + u24) ^ k)%R -> (S <> 0 -> (1 <= b2r s)%R) ->
  let s' := fold_left (fun s z => fadd s (f_of_Z z)) l s in
  let S' := S + zsum (fun z => z) l in
  let k' := (k + length l)%nat in
  fin s' /\ (0 <= b2r s' <= IZR (2 ^ 57))%R /\
  (IZR S' * (1 - u24) ^ k' <= b2r s' <= IZR S' * (1 + u24) ^ k')%R /\ (S' <> 0 -> (1 <= b2r s')%R).
Proof.
  induction l as [|z l IH]; intros s S k HL F B S0 K1 E P.
  - cbn [fold_left zsum fold_right length]. rewrite Z.add_0_r, Nat.add_0_r. auto.
  - inversion HL as [|? ? Hz HL']; subst. destruct (facc_step s z F B Hz) as (F' & B' & V').
    destruct (f_of_small z Hz) as (Fz & Bz & Pz & Ez & _).
    cbn [fold_left zsum fold_right length]. fold (zsum (fun z => z) l).
    replace (S + (z + zsum (fun z => z) l)) with ((S + z) + zsum (fun z => z) l) by lia.
    replace (k + Datatypes.S (length l))%nat with (Datatypes.S k + length l)%nat by lia.
    pose proof u24_lt as U.
    assert (IZR S + IZR z = IZR (S + z))%R as ES by (rewrite plus_IZR; reflexivity).
    assert (0 <= IZR S /\ 0 <= IZR z)%R as (PS & PZ) by (split; apply IZR_le; lia).
    apply IH; auto; try lia.
    + destruct (Z.eq_dec (S + z) 0) as [Z0|NZ].
      { assert (S = 0) by lia. assert (z = 0) by lia. subst. rewrite Rmult_0_l in E, Ez; rewrite Rmult_0_l in E, Ez. rewrite V'. replace (b2r s) with 0%R by lra.
        replace (b2r (f_of_Z 0)) with 0%R by lra. rewrite Rplus_0_l, rnd32_0, !Rmult_0_l. lra. }
      assert (1 <= b2r s + b2r (f_of_Z z))%R as G.
      { destruct (Z.eq_dec S 0) as [->|]; [|specialize (P n); lra]. assert (z <> 0) as Q by lia. specialize (Pz Q). lra. }
      pose proof bpow126_small.
      destruct (rnd32_rel_pos (b2r s + b2r (f_of_Z z))) as (L1 & L2); [lra|]. rewrite <- V' in L1, L2.
      assert ((1 - u24) ^ k <= 1 - u24)%R as Q1.
      { destruct k; [inversion K1|]. cbn [pow]. pose proof (pow_le1 (1 - u24) k ltac:(lra)).
        apply Rle_trans with ((1 - u24) * 1)%R; [apply Rmult_le_compat_l; lra|lra]. }
      assert (1 + u24 <= (1 + u24) ^ k)%R as Q2.
      { destruct k; [inversion K1|]. cbn [pow]. rewrite <- (Rmult_1_r (1 + u24)) at 1. apply Rmult_le_compat_l; [lra|].
        apply pow_R1_Rle. lra. }
      rewrite <- ES. cbn [pow].
      assert (0 <= (1 - u24) ^ k)%R by (apply pow_le; lra).
      assert (IZR z * (1 - u24) ^ k <= IZR z * (1 - u24))%R by (apply Rmult_le_compat_l; auto).
      assert (IZR z * (1 + u24) <= IZR z * (1 + u24) ^ k)%R by (apply Rmult_le_compat_l; auto).
      assert ((IZR S + IZR z) * (1 - u24) ^ k <= b2r s + b2r (f_of_Z z))%R as R1 by lra.
      assert (b2r s + b2r (f_of_Z z) <= (IZR S + IZR z) * (1 + u24) ^ k)%R as R2 by lra.
      split.
      * eapply Rle_trans; [|exact L1]. replace ((IZR S + IZR z) * ((1 - u24) * (1 - u24) ^ k))%R with ((IZR S + IZR z) * (1 - u24) ^ k * (1 - u24))%R by ring.
        apply Rmult_le_compat_r; lra.
      * eapply Rle_trans; [exact L2|]. replace ((IZR S + IZR z) * ((1 + u24) * (1 + u24) ^ k))%R with ((IZR S + IZR z) * (1 + u24) ^ k * (1 + u24))%R by ring.
        apply Rmult_le_compat_r; lra.
    + intros NZ. rewrite V'. apply rnd32_ge_r; [apply (rep32_IZR 1); lia|].
      destruct (Z.eq_dec S 0) as [->|]; [|specialize (P n); lra]. assert (z <> 0) as Q by lia. specialize (Pz Q). lra.
Qed.

Lemma facc_ok : forall l, small_ints l ->
  fin (facc l) /\ (0 <= b2r (facc l) <= IZR (2 ^ 57))%R /\
  (IZR (zsum (fun z => z) l) * (1 - u24) ^ (S (length l)) <= b2r (facc l) <= IZR (zsum (fun z => z) l) * (1 + u24) ^ (S (length l)))%R /\
  (zsum (fun z => z) l <> 0 -> (1 <= b2r (facc l))%R).
Proof.
  intros l H. destruct (facc_gen l f0 0 1 H) as (A & B & C & D); try lia; try reflexivity.
  - cbn [b2r f0]. split; [lra|]. apply IZR_le. lia.
  - cbn [b2r f0]. lra.
  - split; [exact A|]. split; [exact B|]. split; [exact C|]. exact D.
Qed.

(** sums are monotone, whatever the rounding *)
Lemma facc_mono : forall l l', small_ints l -> small_ints l' -> Forall2 Z.le l l' -> (b2r (facc l) <= b2r (facc l'))%R.
Proof.
  intros l l' H H' F2. unfold facc.
  assert (forall s s', fin s -> fin s' -> (0 <= b2r s <= IZR (2 ^ 57))%R -> (0 <= b2r s' <= IZR (2 ^ 57))%R -> (b2r s <= b2r s')%R ->
    (b2r (fold_left (fun s z => fadd s (f_of_Z z)) l s) <= b2r (fold_left (fun s z => fadd s (f_of_Z z)) l' s'))%R) as G.
  { induction F2 as [|z z' l l' Hz F2 IH]; intros s s' F F' B B' L; [exact L|].
    inversion H; inversion H'; subst. cbn [fold_left].
    destruct (facc_step s z F B) as (A1 & A2 & A3); auto. destruct (facc_step s' z' F' B') as (C1 & C2 & C3); auto.
    apply IH; auto. rewrite A3, C3. apply rnd32_le. apply Rplus_le_compat; auto.
    destruct (f_of_small z) as (_ & _ & _ & _ & ->); auto. destruct (f_of_small z') as (_ & _ & _ & _ & ->); auto.
    apply rnd32_le. apply IZR_le. auto. }
  apply G; try reflexivity; cbn [b2r f0]; try lra; split; try lra; apply IZR_le; lia.
Qed.
