(** Property C43: for which radius does reading a colour (get_color) return?  Bit
    exact in [float]. *)
From Verif Require Import Base F32 F32Proofs Blend BlendProofs Queue QueueProofs Plumb PlumbProofs Mask MaskProofs OpaProofs RrProofs MaskFloatProofs FarProofs
  Rect Arith Symmetry Dab DabProofs Sample SampleProofs SampleSpec SampleProofs2 SampleProofs3.
From Coq Require Import Reals Lra Psatz Permutation.
From Flocq Require Import Core.Core IEEE754.BinarySingleNaN.
From Verif Require Import P_Mask P_Dab P_Sample SampleReturn SampleReturn2.
Local Open Scope Z_scope.

Lemma ofold_total : forall S A (f : S -> A -> outcome S) (J : S -> Prop) l s,
  (forall s a, In a l -> J s -> exists s', f s a = Ok s' /\ J s') -> J s -> exists s', ofold f l s = Ok s' /\ J s'.
Proof.
  intros S A f J l. induction l as [|a l IH]; intros s H Js; [exists s; auto|].
  destruct (H s a (or_introl eq_refl) Js) as (s1 & E & J1). cbn [ofold]. rewrite E. cbn [obind]. apply IH; auto. intros; apply H; auto. right; auto.
Qed.

Lemma zsum_one : forall A (f : A -> Z) l a, In a l -> (forall b, In b l -> 0 <= f b) -> f a <= zsum f l.
Proof.
  intros A f l a. induction l as [|b l IH]; intros I H; [destruct I|]. cbn [zsum fold_right]. fold (zsum f l).
  pose proof (H b (or_introl eq_refl)). assert (0 <= zsum f l) by (apply zsum_nonneg; intros; apply H; right; auto).
  destruct I as [->|I]; [lia|]. specialize (IH I (fun b I => H b (or_intror I))). lia.
Qed.

Section C43.
  Variables (trig : trig_oracle) (mix : mix_oracle) (G : trigops num32) (fastpow : f32 -> f32 -> f32) (rand : nat -> Z).

  (** ** Where it does not return *)
  (** The newer sampling counts pixels modulo 7 * radius, which is passed on as a
      16-bit number.  When 7 * radius is rounded down to a multiple of 2^16, the
      remainder by zero is taken: no call with such a radius returns, wherever it
      samples, whatever the canvas holds and in whatever order the threads work. *)
  Lemma stuck_fold : forall x y radius paint interval rate seen s n s' n',
    flt paint f0 = false -> u16 interval = 0 -> Forall (fun tm => mem_ok (snd tm)) seen ->
    ofold (sample_tile trig fastpow rand x y radius paint interval rate) seen (s, n) = Ok (s', n') -> s_w s' = s_w s.
  Proof.
    intros x y radius paint interval rate seen. induction seen as [|(t, mem) seen IH]; intros s n s' n' HP HI HM E.
    - cbn [ofold] in E. injection E as <- _. reflexivity.
    - inversion HM as [|? ? Hm HM']; subst. cbn [ofold] in E. apply obind_ok in E. destruct E as ((s1 & n1) & E1 & E).
      rewrite (IH _ _ _ _ HP HI HM' E). unfold sample_tile in E1. cbn [fst snd] in E1. apply obind_ok in E1. destruct E1 as (mask & Em & E1).
      unfold get_color_pixels_accumulate in E1. rewrite HP, HI in E1.
      apply obind_ok in E1. destruct E1 as (th & _ & E1). apply obind_ok in E1. destruct E1 as (t1 & Et & E1).
      destruct (sample_mask_decode _ _ _ _ _ _ Em) as (l & P & D). rewrite D in Et.
      destruct (counted_tile _ _ _ _ _ _ P) as (C & _).
      assert (ac_w t1 = s_w s) as EW.
      { destruct l as [|(i, j) l]; [cbn [ofold] in Et; injection Et as <-; reflexivity|].
        exfalso. cbn [ofold fst snd] in Et. apply obind_ok in Et. destruct Et as (t2 & Et & _). unfold acc_px in Et.
        rewrite read_px_at in Et; [|apply Hm|apply (C (i, j)); left; auto]. cbn [obind] in Et.
        destruct (if ac_count _ =? 0 then _ else _) as (hit, next). discriminate Et. }
      destruct (Spectral.spectral_to_rgb Color.mix64 (ac_spec t1)) as ((sr, sg), sb). destruct (ac_rgb t1) as ((ar, ag), ab).
      injection E1 as <- _. exact EW.
  Qed.

  Lemma C43_stuck : forall canw canr order sf x y radius paint k sf' c,
    reached trig mix G sf -> any_order order -> sixteen_bit (sf_pix sf') -> flt paint f0 = false ->
    fle radius (f_of_Z 2) = false -> f_to_int (fmul radius (f_of_Z 7)) = Ok (65536 * k) ->
    get_color trig mix fastpow rand canw canr order sf x y radius paint <> Ok (sf', c).
  Proof.
    intros canw canr order sf x y radius paint k sf' c R O S HP H2 HI H.
    destruct (get_color_seen _ _ _ _ _ _ _ _ _ _ _ _ _ _ _ R O H) as (ts & ts' & _ & _ & H').
    assert (sample_radius radius = radius) as SR.
    { unfold sample_radius. destruct (flt radius f1) eqn:E; [|reflexivity]. exfalso. revert E.
      assert (fin radius) as Fr.
      { destruct radius as [s|s| |s m e Hm]; [reflexivity|destruct s; discriminate HI|discriminate HI|reflexivity]. }
      intros E. destruct f1_val as (V1 & F1). destruct (f_of_Z_exact 2) as (V2 & F2); [lia|].
      rewrite flt_spec in E by auto. rewrite fle_spec in H2 by auto. rewrite V1 in E. rewrite V2 in H2.
      revert E H2. case Rlt_bool_spec; intros L E; [|discriminate E]. case Rle_bool_spec; intros L' H2'; [discriminate H2'|]. lra. }
    rewrite SR in H'. unfold sample_seen, sample_interval in H'. rewrite H2, HI in H'. cbn [obind] in H'.
    apply obind_ok in H'. destruct H' as ((s & n) & E & H').
    apply stuck_fold in E; auto.
    - unfold Sample.finish in H'. rewrite E in H'. cbn [s_w] in H'. change (flt f0 f0) with false in H'. discriminate H'.
    - unfold u16. rewrite Z.mul_comm. apply Z.mod_mul. lia.
    - apply Forall_forall. intros (t, m) I. apply in_map_iff in I. destruct I as (t' & I & _). injection I as <- <-. exact (S t').
  Qed.

  (** ** Where it does *)
  Lemma acc_total : forall paint interval threshold mem (sh : Z -> Z -> Z) l s,
    Z.of_nat (length mem) = TILE_WORDS -> interval <> 0 ->
    (forall ij, In ij l -> in_tile (fst ij) (snd ij) /\ 1 <= sh (fst ij) (snd ij) <= 65535) ->
    bounded_sum (ac_w s) ->
    exists s', ofold (fun s ij => acc_px fastpow rand paint interval threshold mem s (4 * (64 * snd ij + fst ij)) (sh (fst ij) (snd ij))) l s = Ok s' /\
      bounded_sum (ac_w s') /\ (b2r (ac_w s) <= b2r (ac_w s'))%R /\ (ac_count s = 0 -> l <> [] -> (/ 32768 <= b2r (ac_w s'))%R).
  Proof.
    intros paint interval threshold mem sh l. induction l as [|(i, j) l IH]; intros s L N T B.
    - exists s. split; [reflexivity|]. split; auto. split; [lra|]. intros _ []; reflexivity.
    - destruct (T (i, j) (or_introl eq_refl)) as (Tij & Sij). cbn [ofold fst snd] in *.
      unfold acc_px at 1. rewrite read_px_at by auto. cbn [obind].
      destruct (if ac_count s =? 0 then (true, ac_next s) else _) as (hit, next) eqn:EH.
      destruct (Z.eqb_spec interval 0); [contradiction|]. cbn [obind].
      set (s1 := mkAcc _ _ _ _ _ _).
      assert (bounded_sum (ac_w s1) /\ (b2r (ac_w s) <= b2r (ac_w s1))%R /\ (hit = true -> / 32768 <= b2r (ac_w s1))%R) as (B1 & M1 & H1).
      { unfold s1. cbn [ac_w]. destruct hit; [|split; [auto|split; [lra|discriminate]]].
        destruct (take_wa fastpow paint (sh i j) (pixel_at mem i j) s) as (-> & _).
        destruct (w_part_small (sh i j)) as (Fp & Bp); [lia|]. split; [apply bounded_add; auto|].
        assert (IZR (2 ^ 32) = 4294967296)%R as E32 by reflexivity.
        destruct B as (Fw & Bw). destruct (sat_step (ac_w s) _ Fw Fp Bw) as (_ & _ & E); [lra|]. rewrite E.
        split; [apply rnd32_ge_r; [apply rep32_b2r|lra]|]. intros _.
        destruct (w_part_val (sh i j)) as (_ & Vp); [lia|]. assert (1 <= IZR (sh i j))%R by (apply IZR_le; lia).
        apply rnd32_ge_r; [|rewrite Vp; lra]. replace (/ 32768)%R with (bpow radix2 (-15)) by (simpl; lra). apply rep32_bpow. lia. }
      destruct (IH s1 L N (fun ij I => T ij (or_intror I)) B1) as (s' & E & B' & M' & _).
      exists s'. split; [exact E|]. split; auto. split; [lra|]. intros C0 _. rewrite C0 in EH. cbn in EH. injection EH as <- _.
      specialize (H1 eq_refl). lra.
  Qed.

  Hypothesis T0 : trig f0 = (f1, f0).

  Lemma interval_ok : forall r, fin r -> (1 <= b2r r <= 65536)%R ->
    exists iv, sample_interval r = Ok iv /\ ((b2r r <= 9362)%R -> u16 iv <> 0).
  Proof.
    intros r F H. unfold sample_interval. destruct (f_of_Z_exact 2) as (V2 & F2); [lia|]. destruct (f_of_Z_exact 7) as (V7 & F7); [lia|].
    rewrite fle_spec, V2 by auto. destruct (Rle_bool_spec (b2r r) 2) as [L|L]; [exists 1; split; [reflexivity|intros _; vm_compute; discriminate]|].
    pose proof bpow127_big. destruct (fmul_spec r (f_of_Z 7) F F7) as (E & F'). { rewrite V7, Rabs_pos_eq by lra. lra. }
    rewrite V7 in E.
    assert (14 <= b2r (fmul r (f_of_Z 7)) <= 458752)%R as B.
    { rewrite E. split; [apply rnd32_ge_r; [apply (rep32_IZR 14); lia|lra]|apply rnd32_le_r; [apply (rep32_IZR 458752); lia|lra]]. }
    assert (Ztrunc (b2r (fmul r (f_of_Z 7))) = Zfloor (b2r (fmul r (f_of_Z 7)))) as TF by (apply Ztrunc_floor; lra).
    assert (14 <= Zfloor (b2r (fmul r (f_of_Z 7)))) as L1 by (apply Zfloor_lub; lra).
    assert (Zfloor (b2r (fmul r (f_of_Z 7))) <= 458752) as L2 by (apply le_IZR; pose proof (Zfloor_lb (b2r (fmul r (f_of_Z 7)))); lra).
    exists (Ztrunc (b2r (fmul r (f_of_Z 7)))). split.
    - apply f_to_Z_ok; auto. rewrite TF. unfold INT_MIN, INT_MAX. lia.
    - intros R9. assert (b2r (fmul r (f_of_Z 7)) <= 65534)%R as B9 by (rewrite E; apply rnd32_le_r; [apply (rep32_IZR 65534); lia|lra]).
      assert (Zfloor (b2r (fmul r (f_of_Z 7))) <= 65534) by (apply le_IZR; pose proof (Zfloor_lb (b2r (fmul r (f_of_Z 7)))); lra).
      rewrite TF. unfold u16. rewrite Z.mod_small by lia. lia.
  Qed.

  Lemma rate_ok : forall r, fin r -> (1 <= b2r r <= 65536)%R -> exists th, f_to_int (fmul (sample_rate r) (f_of_Z RAND_MAX)) = Ok th.
  Proof.
    intros r F H. destruct (f_of_Z_exact 7) as (V7 & F7); [lia|]. destruct f1_val as (V1 & F1). pose proof bpow127_big.
    destruct (fmul_spec (f_of_Z 7) r F7 F) as (E & F'). { rewrite V7, Rabs_pos_eq by lra. lra. }
    rewrite V7 in E. assert (4 <= b2r (fmul (f_of_Z 7) r))%R as B by (rewrite E; apply rnd32_ge_r; [apply (rep32_IZR 4); lia|lra]).
    assert (0 <= 1 / b2r (fmul (f_of_Z 7) r) <= / 4)%R as Q.
    { split; [apply div_pos; lra|]. apply div_le; [lra|]. lra. }
    destruct (fdiv_spec f1 (fmul (f_of_Z 7) r) F1) as (E2 & F2); [lra|rewrite V1, Rabs_pos_eq by lra; lra|]. rewrite V1 in E2.
    fold (sample_rate r) in E2, F2.
    assert (0 <= b2r (sample_rate r) <= / 4)%R as B2.
    { rewrite E2. split; [apply nonneg_rnd; lra|apply rnd32_le_r; [change (/ 4)%R with (bpow radix2 (-2)); apply rep32_bpow; lia|lra]]. }
    destruct (f_of_Z_spec RAND_MAX) as (VM & FM). { unfold RAND_MAX. rewrite Rabs_pos_eq by lra. lra. }
    assert (0 <= b2r (f_of_Z RAND_MAX) <= 2147483648)%R as BM.
    { rewrite VM. unfold RAND_MAX. split; [apply nonneg_rnd; lra|]. apply rnd32_le_r; [|lra].
      change 2147483648%R with (bpow radix2 31). apply rep32_bpow. lia. }
    assert (0 <= b2r (sample_rate r) * b2r (f_of_Z RAND_MAX) <= 536870912)%R as P.
    { split; [apply Rmult_le_pos; lra|]. apply Rle_trans with (/ 4 * 2147483648)%R; [apply Rmult_le_compat; lra|lra]. }
    destruct (fmul_spec (sample_rate r) (f_of_Z RAND_MAX) F2 FM) as (E3 & F3). { rewrite Rabs_pos_eq by lra. lra. }
    assert (0 <= b2r (fmul (sample_rate r) (f_of_Z RAND_MAX)) <= 536870912)%R as B3.
    { rewrite E3. split; [apply nonneg_rnd; lra|]. apply rnd32_le_r; [|lra]. change 536870912%R with (bpow radix2 29). apply rep32_bpow. lia. }
    eexists. apply f_to_Z_ok; auto. rewrite Ztrunc_floor by lra.
    assert (0 <= Zfloor (b2r (fmul (sample_rate r) (f_of_Z RAND_MAX)))) by (apply Zfloor_lub; simpl; lra).
    assert (Zfloor (b2r (fmul (sample_rate r) (f_of_Z RAND_MAX))) <= 536870912).
    { apply le_IZR. pose proof (Zfloor_lb (b2r (fmul (sample_rate r) (f_of_Z RAND_MAX)))). lra. }
    unfold INT_MIN, INT_MAX. lia.
  Qed.

  (** one tile *)
  Lemma tile_total : forall x y r paint iv t mem s n,
    (flt paint f0 = true \/ u16 iv <> 0) -> fin r -> (1 <= b2r r <= 65536)%R ->
    Z.abs (fst t) <= 65536 -> Z.abs (snd t) <= 65536 ->
    bd (fsub x (f_of_Z (fst t * 64))) 20 -> bd (fsub y (f_of_Z (snd t * 64))) 20 -> mem_ok mem -> bounded_sum (s_w s) ->
    exists s' n', sample_tile trig fastpow rand x y r paint iv (sample_rate r) (s, n) (t, mem) = Ok (s', n') /\
      bounded_sum (s_w s') /\ (b2r (s_w s) <= b2r (s_w s'))%R /\
      ((exists i j, in_tile i j /\ share trig x y r t i j <> 0) -> (/ 32768 <= b2r (s_w s'))%R).
  Proof.
    intros x y r paint iv (tx, ty) mem s n HP Fr Hr Hx Hy Bx By Hm B. cbn [fst snd] in *.
    destruct (flat_mask trig T0 (fsub x (f_of_Z (tx * 64))) (fsub y (f_of_Z (ty * 64))) r Bx By Fr) as (mask & Em); [lra|].
    assert (sample_mask trig x y r (tx, ty) = Ok mask) as EM.
    { unfold sample_mask, TILE. cbn [fst snd].
      assert (forall z, Z.abs z <= 65536 -> int_val (z * 64) = Ok (z * 64)) as IV.
      { intros z Hz. unfold int_val, Base.in_int, INT_MIN, INT_MAX. replace ((_ <=? _) && _) with true by lia. reflexivity. }
      rewrite !IV by auto. cbn [obind]. exact Em. }
    unfold sample_tile. cbn [fst snd]. rewrite EM. cbn [obind]. unfold get_color_pixels_accumulate.
    destruct (flt paint f0) eqn:EP.
    - rewrite (legacy_tile trig x y r (tx, ty) mask mem s EM Hm). cbn [obind]. eexists _, _. split; [reflexivity|]. cbn [s_w].
      pose proof (weight_small trig x y r (tx, ty)) as WS. split; [apply bounded_add_int; auto|].
      assert (0 <= IZR (over_tile (share trig x y r (tx, ty))) <= IZR (2 ^ 32))%R as Bz by (split; apply IZR_le; lia).
      assert (IZR (2 ^ 32) = 4294967296)%R as E32 by reflexivity.
      destruct (f_of_Z_spec (over_tile (share trig x y r (tx, ty)))) as (V & Fz). { rewrite Rabs_pos_eq by lra. pose proof bpow127_big. lra. }
      assert (0 <= b2r (f_of_Z (over_tile (share trig x y r (tx, ty)))) <= IZR (2 ^ 32))%R as Bv.
      { rewrite V. split; [apply rnd32_ge_r; [apply rep32_0|lra]|apply rnd32_le_r; [|lra]]. rewrite <- bpow_Z by lia. apply rep32_bpow. lia. }
      destruct B as (Fw & Bw). destruct (sat_step (s_w s) _ Fw Fz Bw Bv) as (_ & _ & E). rewrite E.
      split; [apply rnd32_ge_r; [apply rep32_b2r|lra]|]. intros (i & j & Tij & N).
      assert (1 <= over_tile (share trig x y r (tx, ty))) as L1.
      { assert (share trig x y r (tx, ty) i j <= over_tile (share trig x y r (tx, ty))).
        { rewrite over_tile_zsum.
          apply (zsum_one _ (fun ij => share trig x y r (tx, ty) (fst ij) (snd ij)) pixels (i, j)); [apply in_pixels; auto|].
          intros ij _. apply share_range. }
        pose proof (share_range trig x y r (tx, ty) i j). lia. }
      apply IZR_le in L1. apply rnd32_ge_r; [replace (/ 32768)%R with (bpow radix2 (-15)) by (simpl; lra); apply rep32_bpow; lia|].
      assert (1 <= b2r (f_of_Z (over_tile (share trig x y r (tx, ty)))))%R by (rewrite V; apply rnd32_ge_r; [apply (rep32_IZR 1); lia|lra]). lra.
    - destruct HP as [HP|HP]; [discriminate HP|]. destruct (rate_ok r Fr Hr) as (th & ->). cbn [obind].
      destruct (sample_mask_decode _ _ _ _ _ _ EM) as (l & P & D). rewrite D.
      destruct (counted_tile _ _ _ _ _ _ P) as (C & _).
      match goal with |- context [ofold (fun s ij => acc_px fastpow rand paint (u16 iv) th mem s _ _) l ?a] =>
        destruct (acc_total paint (u16 iv) th mem (share trig x y r (tx, ty)) l a (proj1 Hm) HP) as (t1 & -> & B1 & M1 & H1) end.
      { intros ij I. destruct (C _ I). auto. } { exact B. }
      cbn [obind]. destruct (Spectral.spectral_to_rgb Color.mix64 (ac_spec t1)) as ((sr, sg), sb). destruct (ac_rgb t1) as ((ar, ag), ab).
      eexists _, _. split; [reflexivity|]. cbn [s_w]. split; auto. split; auto. intros (i & j & Tij & N). apply H1; [reflexivity|].
      intros ->. assert (In (i, j) (counted trig x y r (tx, ty))) as I.
      { unfold counted. apply filter_In. split; [apply in_pixels; auto|]. cbn [fst snd]. destruct (Z.eqb_spec (share trig x y r (tx, ty) i j) 0); [contradiction|reflexivity]. }
      apply (Permutation_in _ (Permutation_sym P)) in I. exact I.
  Qed.

  (** the tiles along one axis *)
  Lemma axis_tiles : forall v r t, bd v 20 -> fin r -> (1 <= b2r r <= 65536)%R ->
    lo_px v r / 64 <= Zfloor (b2r v) / 64 <= hi_px v r / 64 /\
    (lo_px v r / 64 <= t <= hi_px v r / 64 -> Z.abs t <= 65536 /\ bd (fsub v (f_of_Z (t * 64))) 20) /\
    (t = Zfloor (b2r v) / 64 -> (0 <= b2r (fsub v (f_of_Z (t * 64))) <= 64)%R).
  Proof.
    intros v r t Bv Fr Hr. destruct (edge_vals v r Bv Fr) as (_ & _ & E1 & E2); [lra|]. apply Rabs_le_inv in E1, E2.
    pose proof (Zfloor_lb (b2r v)) as F1. pose proof (Zfloor_ub (b2r v)) as F2.
    pose proof (Zfloor_lb (b2r (fsub v (fadd r f1)))) as L1. pose proof (Zfloor_ub (b2r (fsub v (fadd r f1)))) as L2. fold (lo_px v r) in L1, L2.
    pose proof (Zfloor_lb (b2r (fadd v (fadd r f1)))) as H1. pose proof (Zfloor_ub (b2r (fadd v (fadd r f1)))) as H2. fold (hi_px v r) in H1, H2.
    destruct Bv as (Fv & Bv). change (bpow radix2 20) with 1048576%R in Bv. apply Rabs_le_inv in Bv. pose proof bpow127_big as BB.
    assert (lo_px v r <= Zfloor (b2r v) <= hi_px v r) as O.
    { split; [apply Zfloor_lub; lra|]. apply Z.lt_succ_r. apply lt_IZR. rewrite succ_IZR. lra. }
    assert (forall z, (Rabs (b2r v - IZR (64 * z)) <= 131072)%R -> Z.abs z <= 65536 ->
      (b2r (fsub v (f_of_Z (z * 64))) = rnd32 (b2r v - IZR (64 * z)) /\ bd (fsub v (f_of_Z (z * 64))) 20)%R) as SUB.
    { intros z D Hz. destruct (f_of_Z_exact (z * 64)) as (Vz & Fz); [lia|]. rewrite (Z.mul_comm 64).
      destruct (fsub_spec v (f_of_Z (z * 64)) Fv Fz) as (E & F). { rewrite Vz, Z.mul_comm. lra. }
      rewrite Vz in E. split; auto. split; auto. rewrite E. apply rnd_bpow; [lia|]. change (bpow radix2 20) with 1048576%R. rewrite Z.mul_comm. lra. }
    assert (NEAR : lo_px v r / 64 <= t <= hi_px v r / 64 -> (Rabs (b2r v - IZR (64 * t)) <= 131072)%R /\ Z.abs t <= 65536).
    { intros Ht. assert (lo_px v r - 63 <= 64 * t <= hi_px v r) as K.
      { pose proof (Z.div_mod (lo_px v r) 64 ltac:(lia)). pose proof (Z.mod_pos_bound (lo_px v r) 64 ltac:(lia)).
        pose proof (Z.div_mod (hi_px v r) 64 ltac:(lia)). pose proof (Z.mod_pos_bound (hi_px v r) 64 ltac:(lia)). lia. }
      destruct K as (K1 & K2). apply IZR_le in K1. apply IZR_le in K2. rewrite minus_IZR in K1. split; [apply Rabs_le; lra|].
      assert (-1200000 <= 64 * t <= 1200000); [|lia]. split; apply le_IZR; lra. }
    split; [split; apply Z.div_le_mono; lia|]. split.
    - intros Ht. destruct (NEAR Ht) as (D & Hz). split; auto. apply SUB; auto.
    - intros ->. set (c := Zfloor (b2r v) / 64) in *.
      assert (64 * c <= Zfloor (b2r v) <= 64 * c + 63) as K.
      { unfold c. pose proof (Z.div_mod (Zfloor (b2r v)) 64 ltac:(lia)). pose proof (Z.mod_pos_bound (Zfloor (b2r v)) 64 ltac:(lia)). lia. }
      destruct K as (K1 & K2). apply IZR_le in K1. apply IZR_le in K2. rewrite plus_IZR in K2.
      destruct (SUB c) as (E & _). { apply Rabs_le. lra. } { assert (-1048640 <= 64 * c <= 1048640); [|lia]. split; apply le_IZR; lra. }
      rewrite E. split; [apply nonneg_rnd; lra|]. apply rnd32_le_r; [apply (rep32_IZR 64); lia|lra].
  Qed.

  Lemma sample_rows_ok : forall x y r, bd x 20 -> bd y 20 -> fin r -> (1 <= b2r r <= 65536)%R ->
    exists rows, sample_rows x y r = Ok rows /\
      forall t, In t (concat rows) <-> lo_px x r / 64 <= fst t <= hi_px x r / 64 /\ lo_px y r / 64 <= snd t <= hi_px y r / 64.
  Proof.
    intros x y r Bx By Fr Hr. destruct (edge_vals x r Bx Fr) as (X1 & X2 & _); [lra|]. destruct (edge_vals y r By Fr) as (Y1 & Y2 & _); [lra|].
    unfold sample_rows. rewrite !tile_coord_ok by auto. cbn [obind]. eexists. split; [reflexivity|].
    intros t. rewrite <- flat_map_concat_map. apply in_grid.
  Qed.

  Lemma granted_all : forall canr rows, (forall t, canr t = true) -> flat_map (up_to_refusal canr) rows = concat rows.
  Proof.
    intros canr rows H. induction rows as [|row rows IH]; [reflexivity|]. cbn [flat_map concat]. rewrite IH. f_equal.
    clear IH. induction row as [|t row IH]; [reflexivity|]. cbn [up_to_refusal]. rewrite H, IH. reflexivity.
  Qed.

  Lemma radius_used : forall radius, finite radius -> (value radius <= 65536)%R ->
    fin (sample_radius radius) /\ (1 <= b2r (sample_radius radius) <= 65536)%R /\
    ((value radius <= 9362)%R -> (b2r (sample_radius radius) <= 9362)%R).
  Proof.
    intros radius F H. unfold sample_radius. destruct f1_val as (V1 & F1). rewrite flt_spec, V1 by auto.
    change (value radius) with (b2r radius) in *. destruct (Rlt_bool_spec (b2r radius) 1).
    - rewrite V1. repeat split; auto; lra.
    - repeat split; auto; lra.
  Qed.

  (** Everything after the reading of the tiles succeeds. *)
  Lemma seen_total : forall x y radius paint ts pix,
    between (-1048576) x 1048576 -> between (-1048576) y 1048576 -> finite radius -> (value radius <= 65536)%R ->
    flt paint f0 = true \/ (value radius <= 9362)%R -> sixteen_bit pix ->
    (forall t, In t ts -> lo_px x (sample_radius radius) / 64 <= fst t <= hi_px x (sample_radius radius) / 64 /\
                          lo_px y (sample_radius radius) / 64 <= snd t <= hi_px y (sample_radius radius) / 64) ->
    In (Zfloor (b2r x) / 64, Zfloor (b2r y) / 64) ts ->
    exists c, sample_seen trig fastpow rand (map (fun t => (t, pix t)) ts) x y (sample_radius radius) paint = Ok c.
  Proof.
    intros x y radius paint ts pix Hx Hy Fr Hr HP S HT IC. apply between_bd in Hx, Hy.
    destruct (radius_used radius Fr Hr) as (Fr' & Hr' & Hr9). set (r := sample_radius radius) in *.
    unfold sample_seen. destruct (interval_ok r Fr' Hr') as (iv & -> & NZ). cbn [obind].
    assert (flt paint f0 = true \/ u16 iv <> 0) as HP' by (destruct HP; auto).
    assert (OKT : forall t s n, In t ts -> bounded_sum (s_w s) ->
      exists s' n', sample_tile trig fastpow rand x y r paint iv (sample_rate r) (s, n) (t, pix t) = Ok (s', n') /\
        bounded_sum (s_w s') /\ (b2r (s_w s) <= b2r (s_w s'))%R /\
        ((exists i j, in_tile i j /\ share trig x y r t i j <> 0) -> (/ 32768 <= b2r (s_w s'))%R)).
    { intros t s n It B. destruct (HT t It) as (T1 & T2).
      destruct (axis_tiles x r (fst t) Hx Fr' Hr') as (_ & A1 & _). destruct (axis_tiles y r (snd t) Hy Fr' Hr') as (_ & A2 & _).
      destruct (A1 T1) as (A11 & A12). destruct (A2 T2) as (A21 & A22). apply tile_total; auto. exact (S t). }
    assert (FOLD : forall l s n, (forall t, In t l -> In t ts) -> bounded_sum (s_w s) ->
      exists s' n', ofold (sample_tile trig fastpow rand x y r paint iv (sample_rate r)) (map (fun t => (t, pix t)) l) (s, n) = Ok (s', n') /\
        bounded_sum (s_w s') /\ (b2r (s_w s) <= b2r (s_w s'))%R /\
        ((exists t i j, In t l /\ in_tile i j /\ share trig x y r t i j <> 0) -> (/ 32768 <= b2r (s_w s'))%R)).
    { induction l as [|t l IH]; intros s n SUB B.
      - exists s, n. split; [reflexivity|]. split; auto. split; [lra|]. intros (t & _ & _ & [] & _).
      - destruct (OKT t s n (SUB t (or_introl eq_refl)) B) as (s1 & n1 & E1 & B1 & M1 & H1).
        destruct (IH s1 n1 (fun t I => SUB t (or_intror I)) B1) as (s' & n' & E' & B' & M' & H').
        exists s', n'. split. { cbn [map ofold]. etransitivity; [apply (f_equal (fun z => obind z _) E1)|]. exact E'. } split; auto. split; [lra|].
        intros (t' & i & j & [<-|I] & Tij & N); [|apply H'; exists t', i, j; auto]. assert (/ 32768 <= b2r (s_w s1))%R by (apply H1; exists i, j; auto). lra. }
    destruct (FOLD ts (mkSums f0 f0 f0 f0 f0) 0%nat (fun t I => I) bounded_0) as (s & n & -> & (Fs & Bs) & _ & P). cbn [obind].
    assert (/ 32768 <= b2r (s_w s))%R as W.
    { apply P. set (t := (Zfloor (b2r x) / 64, Zfloor (b2r y) / 64)) in *. destruct (HT t IC) as (T1 & T2).
      destruct (axis_tiles x r (fst t) Hx Fr' Hr') as (_ & A1 & C1). destruct (axis_tiles y r (snd t) Hy Fr' Hr') as (_ & A2 & C2).
      destruct (A1 T1) as (_ & A12). destruct (A2 T2) as (_ & A22). specialize (C1 eq_refl). specialize (C2 eq_refl).
      destruct (centre_counts trig T0 _ _ r A12 A22 C1 C2 Fr') as (x0 & y0 & x1 & y1 & v & Eb & Ix & Iy & Ev & Lv); [lra|].
      exists t, (mid (fsub x (f_of_Z (fst t * 64)))), (mid (fsub y (f_of_Z (snd t * 64)))). split; auto. split.
      - split; apply mid_ok; auto.
      - unfold share. rewrite Eb. replace ((_ <=? _) && _ && _ && _) with true by lia. rewrite Ev. lia. }
    unfold Sample.finish. destruct f0_val as (V0 & F0). rewrite flt_spec, V0 by auto. rewrite Rlt_bool_true by lra.
    cbv zeta. destruct (flt f0 (fdiv (s_a s) (s_w s))); eexists; reflexivity.
  Qed.

  (** Sampling within a million pixels of the origin returns for every radius up to
      65536 in the classic mode (negative [paint]) and up to 9362 in the newer one,
      provided the backend hands out the tiles and the dabs still queued in them can
      be drawn.  [cos 0 = 1] and [sin 0 = 0] is all that is used of the C library.
      Missing for the full claim "every radius": false, see [C43_refuted]. *)
  Theorem C43_returns_partial : forall canw canr order sf x y radius paint,
    reached trig mix G sf -> any_order order ->
    between (-1048576) x 1048576 -> between (-1048576) y 1048576 -> finite radius -> (value radius <= 65536)%R ->
    flt paint f0 = true \/ (value radius <= 9362)%R -> (forall t, canr t = true) ->
    exists rows, sample_rows x y (sample_radius radius) = Ok rows /\
      forall sf' seen, read op (list Z) (op_steps trig mix) canw canr rows sf = Ok (sf', seen) -> sixteen_bit (sf_pix sf') ->
        exists c, get_color trig mix fastpow rand canw canr order sf x y radius paint = Ok (sf', c).
  Proof.
    intros canw canr order sf x y radius paint R O Hx Hy Fr Hr HP HC.
    destruct (radius_used radius Fr Hr) as (Fr' & Hr' & _).
    pose proof (between_bd _ Hx) as Bx. pose proof (between_bd _ Hy) as By.
    destruct (sample_rows_ok x y (sample_radius radius) Bx By Fr' Hr') as (rows & Er & HT). exists rows. split; auto.
    intros sf' seen Es S.
    pose proof (read_final _ _ _ _ _ _ _ _ _ (reached_wf trig mix G sf R) (sample_rows_nodup _ _ _ _ Er) Es) as ->.
    rewrite granted_all in Es by auto.
    destruct (Permutation_map_inv _ _ (Permutation_sym (O (map (fun t => (t, sf_pix sf' t)) (concat rows))))) as (ts' & E' & P').
    destruct (seen_total x y radius paint ts' (sf_pix sf') Hx Hy Fr Hr HP S) as (c & Ec).
    { intros t I. apply HT. apply (Permutation_in _ (Permutation_sym P')). exact I. }
    { apply (Permutation_in _ P'). apply HT. cbn [fst snd].
      split; [apply (axis_tiles x _ 0 Bx Fr' Hr')|apply (axis_tiles y _ 0 By Fr' Hr')]. }
    exists c. unfold get_color. cbv zeta. rewrite Er. cbn [obind]. rewrite Es. cbn [obind]. rewrite E', Ec. reflexivity.
  Qed.

  (** In particular it returns, and leaves the pixels alone, when no dab is waiting. *)
  Lemma read_idle : forall canw canr rows (s : surf op (list Z)) seen, wf (sf_q s) -> (forall t, QueueProofs.pend (sf_q s) t = []) ->
    exists s' seen', ofold (fun a row => read_row op (list Z) (op_steps trig mix) canw canr row (fst a) (snd a)) rows (s, seen) = Ok (s', seen') /\
      sf_pix s' = sf_pix s.
  Proof.
    intros canw canr.
    assert (ROW : forall row (s : surf op (list Z)) seen, wf (sf_q s) -> (forall t, QueueProofs.pend (sf_q s) t = []) ->
      exists s' seen', read_row op (list Z) (op_steps trig mix) canw canr row s seen = Ok (s', seen') /\
        sf_pix s' = sf_pix s /\ wf (sf_q s') /\ (forall t, QueueProofs.pend (sf_q s') t = [])).
    { induction row as [|t row IH]; intros s seen W N; cbn [read_row].
      - exists s, seen. auto.
      - unfold process_tile. destruct (pop_only op (sf_q s) t W) as (q' & -> & O). rewrite (N t) in *. cbn [hd_error tl obind] in *.
        destruct O as [W' _ _ Oo].
        assert (forall t', QueueProofs.pend q' t' = []) as N'.
        { intros t'. rewrite Oo. destruct (tile_equal t t'); auto. }
        destruct (canr t).
        + destruct (IH (mkSurf q' (sf_pix s)) (seen ++ [(t, sf_pix s t)]) W' N') as (s' & seen' & E & P). exists s', seen'. auto.
        + eexists _, _. split; [reflexivity|]. auto. }
    induction rows as [|row rows IH]; intros s seen W N.
    - exists s, seen. auto.
    - cbn [ofold fst snd]. destruct (ROW row s seen W N) as (s1 & seen1 & -> & P1 & W1 & N1). cbn [obind].
      destruct (IH s1 seen1 W1 N1) as (s' & seen' & E & P). exists s', seen'. split; auto. congruence.
  Qed.

  Theorem C43_idle_partial : forall canw canr order sf x y radius paint,
    reached trig mix G sf -> any_order order -> (forall t, QueueProofs.pend (sf_q sf) t = []) -> sixteen_bit (sf_pix sf) ->
    between (-1048576) x 1048576 -> between (-1048576) y 1048576 -> finite radius -> (value radius <= 65536)%R ->
    flt paint f0 = true \/ (value radius <= 9362)%R -> (forall t, canr t = true) ->
    exists sf' c, get_color trig mix fastpow rand canw canr order sf x y radius paint = Ok (sf', c) /\ sf_pix sf' = sf_pix sf.
  Proof.
    intros canw canr order sf x y radius paint R O N S Hx Hy Fr Hr HP HC.
    destruct (C43_returns_partial canw canr order sf x y radius paint R O Hx Hy Fr Hr HP HC) as (rows & _ & H).
    destruct (read_idle canw canr rows sf [] (reached_wf trig mix G sf R) N) as (s' & seen' & E & P).
    destruct (H s' seen' E) as (c & Ec); [rewrite P; exact S|]. exists s', c. auto.
  Qed.
End C43.

(** The radius 9362.3: no reading with it in the newer mode ever returns. *)
Definition bad_radius : f32 := flit 93623 10.
Theorem C43_refuted : exists radius, between 9362 radius 9363 /\
  forall trig mix G fastpow rand canw canr order sf x y paint sf' c,
    reached trig mix G sf -> any_order order -> sixteen_bit (sf_pix sf') -> flt paint f0 = false ->
    get_color trig mix fastpow rand canw canr order sf x y radius paint <> Ok (sf', c).
Proof.
  exists bad_radius. split.
  - assert (fle (f_of_Z 9362) bad_radius && fle bad_radius (f_of_Z 9363) && is_finite bad_radius = true) as T by (vm_compute; reflexivity).
    apply andb_prop in T. destruct T as (T & F). apply andb_prop in T. destruct T as (T1 & T2).
    destruct (f_of_Z_exact 9362) as (V1 & F1); [lia|]. destruct (f_of_Z_exact 9363) as (V2 & F2); [lia|].
    rewrite fle_spec in T1 by auto. rewrite fle_spec in T2 by auto. rewrite V1 in T1. rewrite V2 in T2.
    split; [exact F|]. change (value bad_radius) with (b2r bad_radius).
    revert T1 T2. case Rle_bool_spec; intros L1 T1; [|discriminate T1]. case Rle_bool_spec; intros L2 T2; [|discriminate T2]. auto.
  - intros. eapply (C43_stuck trig mix G fastpow rand) with (k := 1); eauto; vm_compute; reflexivity.
Qed.

(** A case: the hypotheses hold for any uniformly filled canvas and an ordinary
    radius, and a small reading computed in full. *)
Example C43_case : forall r g b a, Forall (fun w => 0 <= w <= 65535) [r; g; b; a] ->
  exists sf' c, get_color flat no_mix (fun _ _ => f1) (fun _ => 0) yes yes keep (filled_surface r g b a) (f_of_Z (-100)) (f_of_Z 70000) (f_of_Z 9000) f1 = Ok (sf', c).
Proof.
  intros r g b a H.
  destruct (C43_idle_partial flat no_mix no_turn (fun _ _ => f1) (fun _ => 0) eq_refl yes yes keep (filled_surface r g b a)
    (f_of_Z (-100)) (f_of_Z 70000) (f_of_Z 9000) f1) as (sf' & c & E & _); eauto.
  - apply filled_reached.
  - intros l. apply Permutation_refl.
  - intros t. cbn [filled_surface sf_q]. apply pend_new.
  - apply filled_words. exact H.
  - destruct (f_of_Z_exact (-100)) as (V & F); [lia|]. split; [exact F|]. change value with (@b2r 24 128). rewrite V. lra.
  - destruct (f_of_Z_exact 70000) as (V & F); [lia|]. split; [exact F|]. change value with (@b2r 24 128). rewrite V. lra.
  - apply (f_of_Z_exact 9000). lia.
  - destruct (f_of_Z_exact 9000) as (V & F); [lia|]. change value with (@b2r 24 128). rewrite V. lra.
  - right. destruct (f_of_Z_exact 9000) as (V & F); [lia|]. change value with (@b2r 24 128). rewrite V. lra.
Qed.
Example C43_case_small :
  sampled (sample 32768 0 0 32768 (f_of_Z 10) (f_of_Z 63) (f_of_Z 0) fhalf) (fun r g b a => feq a f1) = true.
Proof. vm_compute. reflexivity. Qed.

Print Assumptions C43_returns_partial.
Print Assumptions C43_idle_partial.
Print Assumptions C43_refuted.
