(** Property C38: reading a colour from the canvas (get_color).  Bit exact in
    [float]; for every surface reached by any history, every pattern of refused
    tiles, every order in which the threads add up the tiles, and every result of
    rand() and fastpow(). *)
From Verif Require Import Base F32 F32Proofs Queue QueueProofs Blend Mask MaskProofs OpaProofs RrProofs
  MaskFloatProofs FarProofs Rect Arith Symmetry Plumb PlumbProofs P_Plumb Dab DabProofs HistoryProofs KeepProofs SurfProofs
  Sample SampleProofs SampleSpec SampleProofs2 SampleProofs3.
From Coq Require Import Reals Lra Psatz Permutation.
From Flocq Require Import Core.Core IEEE754.BinarySingleNaN.
From Verif Require Import P_Mask P_Dab.
Local Open Scope Z_scope.

(** a surface that came about by any history of the API *)
Definition reached (trig : trig_oracle) (mix : mix_oracle) (G : trigops num32) (sf : surf op (list Z)) : Prop :=
  exists ok junk pix0 ts0 evs ts rs, tiled_surface_init G ok junk pix0 = Ok ts0 /\ canvas pix0 /\
    srun trig mix G ts0 evs = Ok (ts, rs) /\ sf = ts_sf ts.

(** any order: the accumulation of the tiles may happen in any order *)
Definition any_order (order : list (tile * list Z) -> list (tile * list Z)) : Prop := forall l, Permutation l (order l).

(** [reads canr x y radius ts]: the tiles that are read; a radius below 1 counts as 1 *)
Definition reads (canr : tile -> bool) (x y radius : f32) (ts : list tile) : Prop :=
  exists rows, sample_rows x y (sample_radius radius) = Ok rows /\ ts = flat_map (up_to_refusal canr) rows.

Section C38.
  Variables (trig : trig_oracle) (mix : mix_oracle) (G : trigops num32) (fastpow : f32 -> f32 -> f32) (rand : nat -> Z).
  Notation get_color := (get_color trig mix fastpow rand).
  Notation share x y radius := (share trig x y (sample_radius radius)).

  Lemma reached_wf : forall sf, reached trig mix G sf -> wf (sf_q sf).
  Proof.
    intros sf (ok & junk & pix0 & ts0 & evs & ts & rs & I0 & C0 & R & ->).
    unfold tiled_surface_init in I0. inv_bind I0. injection I0 as <-. set (ts0 := mkTS _ _ _ _ _) in *.
    assert (K : keeps op (list Z) (fun _ mem => tile_ok mem) (fun _ _ => True) (ts_sf ts)).
    { eapply (srun_keeps trig mix G (fun _ mem => tile_ok mem) (fun _ _ => True)); [|exact R| |].
      - intros t o mem mem' _ L H. destruct (process_op_px trig mix t o mem mem' L H) as (L' & _). exact L'.
      - apply fresh_keeps. exact C0.
      - intros d _ o tiles t _ _ _. exact I. }
    apply K.
  Qed.

  Lemma get_color_seen : forall canw canr order sf x y radius paint sf' c,
    reached trig mix G sf -> any_order order ->
    get_color canw canr order sf x y radius paint = Ok (sf', c) ->
    exists ts ts', reads canr x y radius ts /\ Permutation ts ts' /\
      sample_seen trig fastpow rand (map (fun t => (t, sf_pix sf' t)) ts') x y (sample_radius radius) paint = Ok c.
  Proof.
    intros canw canr order sf x y radius paint sf' c R O H. unfold Sample.get_color in H. cbv zeta in H.
    apply obind_ok in H. destruct H as (rows & Er & H). apply obind_ok in H. destruct H as ((sf1 & seen) & Es & H).
    apply obind_ok in H. destruct H as (c1 & Ec & H). injection H as <- <-.
    pose proof (read_final _ _ _ _ _ _ _ _ _ (reached_wf sf R) (sample_rows_nodup _ _ _ _ Er) Es) as ->.
    destruct (Permutation_map_inv _ _ (Permutation_sym (O (map (fun t => (t, sf_pix sf1 t)) (flat_map (up_to_refusal canr) rows))))) as (ts' & E' & P').
    exists (flat_map (up_to_refusal canr) rows), ts'. split; [exists rows; auto|]. split; auto.
    rewrite <- E'. exact Ec.
  Qed.

  Lemma sums_legacy : forall pix ts x y radius paint c, flt paint f0 = true -> sixteen_bit pix ->
    sample_seen trig fastpow rand (map (fun t => (t, pix t)) ts) x y (sample_radius radius) paint = Ok c ->
    let sh := share x y radius in
    Sample.finish paint (mkSums (facc (map (fun t => over_tile (sh t)) ts))
      (facc (map (fun t => gathered sh (pix t) pr t) ts)) (facc (map (fun t => gathered sh (pix t) pg t) ts))
      (facc (map (fun t => gathered sh (pix t) pb t) ts)) (facc (map (fun t => gathered sh (pix t) pa t) ts))) = Ok c.
  Proof.
    intros pix ts x y radius paint c HP S H sh. unfold sample_seen in H. apply obind_ok in H. destruct H as (iv & _ & H).
    apply obind_ok in H. destruct H as ((s & n) & E & H).
    apply fold_legacy in E; auto.
    - cbn [s_w s_r s_g s_b s_a] in E. rewrite !map_map in E. cbn [fst snd] in E. subst s. exact H.
    - apply Forall_forall. intros (t, m) I. apply in_map_iff in I. destruct I as (t' & I & _). injection I as <- <-. exact (S t').
  Qed.

  Lemma small_lists : forall pix (ts : list tile) x y radius c, sixteen_bit pix -> In c [pr; pg; pb; pa] ->
    small_ints (map (fun t => over_tile (share x y radius t)) ts) /\
    small_ints (map (fun t => gathered (share x y radius) (pix t) c t) ts).
  Proof.
    intros pix ts x y radius c S I. split; apply Forall_forall; intros z Iz; apply in_map_iff in Iz; destruct Iz as (t & <- & _).
    - apply weight_small.
    - apply gathered_small; auto. exact (S t).
  Qed.

  (** from cut-off sums to exact ones *)
  Lemma gathered_bounds : forall pix t x y radius c, sixteen_bit pix -> In c [pr; pg; pb; pa] ->
    let sh := share x y radius in
    let E := over_tile (fun i j => sh t i j * c (pixel_at (pix t) i j)) in
    let N := over_tile (fun i j => if sh t i j =? 0 then 0 else 1) in
    let A := gathered sh (pix t) c t in 32768 * A <= E <= 32768 * A + 32768 * N.
  Proof.
    intros pix t x y radius c S I sh E N A. unfold E, N, A, gathered. rewrite !over_tile_zsum.
    rewrite <- !zsum_mul, <- zsum_add. split; apply zsum_le; intros (i, j) Iij; cbn [fst snd]; apply in_pixels in Iij;
      pose proof (pix_word (pix t) i j c (S t) Iij I) as Pc; pose proof (share_range trig x y (sample_radius radius) t i j) as Ps; fold (sh t i j) in Ps;
      unfold ONE; pose proof (Z.div_mod (sh t i j * c (pixel_at (pix t) i j)) 32768 ltac:(lia)); 
      pose proof (Z.mod_pos_bound (sh t i j * c (pixel_at (pix t) i j)) 32768 ltac:(lia)).
    - lia.
    - destruct (Z.eqb_spec (sh t i j) 0) as [E0|]; [|lia].
      rewrite E0, Z.mul_0_l, Z.div_0_l by lia. lia.
  Qed.

  Lemma total_bounds : forall pix ts x y radius c, sixteen_bit pix -> In c [pr; pg; pb; pa] ->
    let sh := share x y radius in
    let A := zsum (fun z => z) (map (fun t => gathered sh (pix t) c t) ts) in
    32768 * A <= weighted sh pix c ts <= 32768 * A + 32768 * touched sh ts.
  Proof.
    intros pix ts x y radius c S I sh A. unfold A, weighted, touched. rewrite !over_tiles_zsum, zsum_map.
    rewrite <- !zsum_mul, <- zsum_add. split; apply zsum_le; intros t It; apply gathered_bounds; auto.
  Qed.

  Lemma totals_perm : forall sh pix c ts ts', Permutation ts ts' ->
    weight sh ts = weight sh ts' /\ weighted sh pix c ts = weighted sh pix c ts' /\ touched sh ts = touched sh ts' /\ length ts = length ts'.
  Proof.
    intros. unfold weight, weighted, touched. rewrite !over_tiles_zsum. split; [|split; [|split]];
      try (apply zsum_perm; assumption). apply Permutation_length. auto.
  Qed.

  (** ** The result is a colour *)
  (** Classic sampling (a negative [paint]) returns four proper numbers between 0
      and 1, whatever 16-bit values the canvas holds (also colours above alpha). *)
  Theorem C38_in_range : forall canw canr order sf x y radius paint sf' r g b a,
    reached trig mix G sf -> any_order order -> flt paint f0 = true -> sixteen_bit (sf_pix sf') ->
    get_color canw canr order sf x y radius paint = Ok (sf', (r, g, b, a)) ->
    between 0 r 1 /\ between 0 g 1 /\ between 0 b 1 /\ between 0 a 1.
  Proof.
    intros canw canr order sf x y radius paint sf' r g b a R O HP S H.
    destruct (get_color_seen _ _ _ _ _ _ _ _ _ _ R O H) as (ts & ts' & _ & _ & H').
    apply sums_legacy in H'; auto. 
    pose proof (fun c I => small_lists (sf_pix sf') ts' x y radius c S I) as SL.
    eapply finish_legacy with (n := length ts') in H'; rewrite ?map_length; auto;
      try (apply (SL pr); simpl; auto; fail); try (apply (SL pg); simpl; auto; fail); try (apply (SL pb); simpl; auto; fail); try (apply (SL pa); simpl; auto; fail).
    destruct H' as (_ & Fa & (q & _ & Va & Pq) & C & _).
    destruct (C _ r (or_introl eq_refl)) as (Fr & Br & _).
    destruct (C _ g (or_intror (or_introl eq_refl))) as (Fg & Bg & _).
    destruct (C _ b (or_intror (or_intror (or_introl eq_refl)))) as (Fb & Bb & _).
    unfold between, finite, value. repeat split; auto; try apply Br; try apply Bg; try apply Bb; unfold b2r in *; rewrite Va.
    - apply Rmin_glb; lra.
    - apply Rmin_l.
  Qed.

  (** ** The result is the average *)
  (** With W the total weight of the area, E c the weighted sum of channel c over
      the canvas (full scale 2^15), N the number of pixels in the area and n the
      number of tiles read: the returned alpha is E pa / (2^15 W) and the returned
      colours are E c / E pa, up to two errors.  Cutting off the fraction of every
      product loses less than N units of the sums, and each float operation moves
      the quotient by a factor of at most (1 + 2^-24) / (1 - 2^-24).
      Missing for the full claim "between the smallest and the largest value
      sampled": false because of these errors, see [C38_between_refuted]. *)
  Theorem C38_average_partial : forall canw canr order sf x y radius paint sf' r g b a ts,
    reached trig mix G sf -> any_order order -> flt paint f0 = true -> sixteen_bit (sf_pix sf') ->
    reads canr x y radius ts ->
    get_color canw canr order sf x y radius paint = Ok (sf', (r, g, b, a)) ->
    let sh := share x y radius in
    let W := IZR (weight sh ts) in
    let E c := (IZR (weighted sh (sf_pix sf') c ts) / 32768)%R in
    let N := IZR (touched sh ts) in
    let n := length ts in
    (0 < W /\
     Rmin 1 ((E pa - N) / W / slack (n + 2)) <= value a <= E pa / W * slack (n + 2) /\
     (value a <> 0 ->
      forall c out, In (c, out) [(pr, r); (pg, g); (pb, b)] ->
        0 < E pa /\ Rmin 1 ((E c - N) / E pa / slack (n + 3)) <= value out /\
        (0 < E pa - N -> value out <= E c / (E pa - N) * slack (n + 3))) /\
     (value a = 0 -> r = f0 /\ g = f1 /\ b = f0))%R.
  Proof.
    intros canw canr order sf x y radius paint sf' r g b a ts R O HP S RD H sh W E N n.
    destruct (get_color_seen _ _ _ _ _ _ _ _ _ _ R O H) as (ts1 & ts' & RD' & PM & H').
    assert (ts1 = ts) as ->. { destruct RD as (rows & E1 & ->). destruct RD' as (rows' & E2 & ->). congruence. }
    apply sums_legacy in H'; auto.
    pose proof (fun c I => small_lists (sf_pix sf') ts' x y radius c S I) as SL.
    pose proof (fun c I => total_bounds (sf_pix sf') ts' x y radius c S I) as TB. cbv zeta in TB.
    fold sh in H', SL, TB.
    set (lw := map (fun t => over_tile (sh t)) ts') in *. set (lc := fun c => map (fun t => gathered sh (sf_pix sf' t) c t) ts').
    assert (zsum (fun z => z) lw = weight sh ts) as EW.
    { unfold lw. rewrite zsum_map. destruct (totals_perm sh (sf_pix sf') pa ts ts' PM) as (-> & _). reflexivity. }
    assert (TC : forall c, In c [pr; pg; pb; pa] -> (E c - N <= IZR (zsum (fun z => z) (lc c)) <= E c)%R).
    { intros c I. specialize (TB c I). destruct (totals_perm sh (sf_pix sf') c ts ts' PM) as (_ & E1 & E2 & _).
      rewrite <- E1, <- E2 in TB. change (map (fun t => gathered sh (sf_pix sf' t) c t) ts') with (lc c) in TB. unfold E, N.
      destruct TB as (T1 & T2). apply IZR_le in T1. apply IZR_le in T2. rewrite ?plus_IZR, ?mult_IZR in T1. rewrite ?plus_IZR, ?mult_IZR in T2. lra. }
    assert (NN : (0 <= N)%R). { unfold N, touched. rewrite over_tiles_zsum. apply IZR_le. apply zsum_nonneg. intros t _. rewrite over_tile_zsum.
      apply zsum_nonneg. intros (i, j) _. destruct (_ =? 0); lia. }
    eapply finish_legacy with (n := n) in H'; rewrite ?map_length; auto;
      try (apply (SL pr); simpl; auto; fail); try (apply (SL pg); simpl; auto; fail); try (apply (SL pb); simpl; auto; fail); try (apply (SL pa); simpl; auto; fail).
    2:{ unfold lw. rewrite map_length. unfold n. symmetry. apply Permutation_length. auto. }
    2-5: unfold n; symmetry; apply Permutation_length; auto.
    change (map (fun t => gathered sh (sf_pix sf' t) pr t) ts') with (lc pr) in H'.
    change (map (fun t => gathered sh (sf_pix sf' t) pg t) ts') with (lc pg) in H'.
    change (map (fun t => gathered sh (sf_pix sf' t) pb t) ts') with (lc pb) in H'.
    change (map (fun t => gathered sh (sf_pix sf' t) pa t) ts') with (lc pa) in H'.
    destruct H' as (PW & Fa & (q & (NQ1 & NQ2) & Va & Pq) & C & Z0).
    rewrite EW in *. assert (0 < W)%R as PW' by (unfold W; apply IZR_lt; auto). fold W in NQ1, NQ2.
    pose proof (rho_pow (n + 2)) as S2. pose proof (rho_pow (n + 3)) as S3.
    rewrite !slack_rho. change value with (@b2r 24 128).
    assert (0 < / W)%R as IW by (apply Rinv_0_lt_compat; auto).
    assert (0 < / rho ^ (n + 2))%R as I2 by (apply Rinv_0_lt_compat; lra).
    assert (0 < / rho ^ (n + 3))%R as I3 by (apply Rinv_0_lt_compat; lra).
    destruct (TC pa ltac:(simpl; auto)) as (TA1 & TA2).
    split; auto. split; [|split; [|exact Z0]].
    - rewrite Va. split.
      + apply Rle_min_compat_l. eapply Rle_trans; [|exact NQ1]. unfold Rdiv.
        apply Rmult_le_compat_r; [lra|]. apply Rmult_le_compat_r; lra.
      + eapply Rle_trans; [apply Rmin_r|]. eapply Rle_trans; [exact NQ2|].
        apply Rmult_le_compat_r; [lra|]. unfold Rdiv. apply Rmult_le_compat_r; lra.
    - intros NZ c out I. rewrite !slack_rho.
      assert (In (lc c, out) [(lc pr, r); (lc pg, g); (lc pb, b)] /\ In c [pr; pg; pb; pa]) as (I' & Ic).
      { destruct I as [I|[I|[I|[]]]]; injection I as <- <-; simpl; auto. }
      destruct (C _ _ I') as (Fo & Bo & Q). destruct (Q NZ) as (q' & (N1 & N2) & Vo).
      destruct (TC c Ic) as (TC1 & TC2).
      assert (0 < IZR (zsum (fun z => z) (lc pa)))%R as PA.
      { assert (0 <= zsum (fun z => z) (lc pa)) as P0.
        { apply zsum_nonneg. intros z Iz. destruct (SL pa ltac:(simpl; auto)) as (_ & Sm). unfold small_ints in Sm. rewrite Forall_forall in Sm. specialize (Sm z Iz). lia. }
        destruct (Z.eq_dec (zsum (fun z => z) (lc pa)) 0) as [Z|N']; [|apply IZR_lt; lia].
        exfalso. apply NZ. rewrite Z in NQ2. unfold Rdiv in NQ2. rewrite !Rmult_0_l in NQ2. rewrite Va. rewrite Rmin_right; lra. }
      assert (0 <= IZR (zsum (fun z => z) (lc c)))%R as PC.
      { apply IZR_le. apply zsum_nonneg. intros z Iz. destruct (SL c Ic) as (_ & Sm). unfold small_ints in Sm. rewrite Forall_forall in Sm. specialize (Sm z Iz). lia. }
      assert (0 < E pa)%R as PE by lra. split; auto. rewrite Vo. split.
      + apply Rle_min_compat_l. eapply Rle_trans; [|exact N1]. unfold Rdiv.
        apply Rmult_le_compat_r; [lra|].
        destruct (Rle_dec (E c - N) 0) as [NE|PE'].
        * apply Rle_trans with 0%R; [|apply Rmult_le_pos; [lra|left; apply Rinv_0_lt_compat; lra]].
          apply Ropp_le_cancel. rewrite Ropp_0, <- Ropp_mult_distr_l_reverse. apply Rmult_le_pos; [lra|]. left. apply Rinv_0_lt_compat. lra.
        * apply Rmult_le_compat; try lra; [left; apply Rinv_0_lt_compat; lra|apply Rinv_le_contravar; lra].
      + intros PN. eapply Rle_trans; [apply Rmin_r|]. eapply Rle_trans; [exact N2|].
        apply Rmult_le_compat_r; [lra|]. unfold Rdiv. apply Rmult_le_compat; try lra.
        * left. apply Rinv_0_lt_compat. lra.
        * apply Rinv_le_contravar; lra.
  Qed.

  (** ** Every mode of mixing *)
  (** an invariant of the sums of weight and alpha, for any [paint] *)
  Lemma seen_inv : forall (I : f32 -> f32 -> Prop) pix ts x y radius paint c, sixteen_bit pix ->
    (forall t w a, In t ts -> I w a ->
       I (fadd w (f_of_Z (over_tile (share x y radius t)))) (fadd a (f_of_Z (gathered (share x y radius) (pix t) pa t)))) ->
    (forall t i j w a, In t ts -> in_tile i j -> share x y radius t i j <> 0 -> I w a ->
       I (fadd w (w_part (share x y radius t i j))) (fadd a (a_part (share x y radius t i j) (pa (pixel_at (pix t) i j))))) ->
    I f0 f0 ->
    sample_seen trig fastpow rand (map (fun t => (t, pix t)) ts) x y (sample_radius radius) paint = Ok c ->
    exists s, I (s_w s) (s_a s) /\ Sample.finish paint s = Ok c.
  Proof.
    intros I pix ts x y radius paint c S H1 H2 H0 H. unfold sample_seen in H. apply obind_ok in H. destruct H as (iv & _ & H).
    apply obind_ok in H. destruct H as ((s & n) & E & H). exists s. split; auto.
    revert E. apply (sample_inv trig fastpow rand I).
    - apply Forall_forall. intros (t, m) Im. apply in_map_iff in Im. destruct Im as (t' & Im & _). injection Im as <- <-. exact (S t').
    - intros t m w a Im Iwa. apply in_map_iff in Im. destruct Im as (t' & Im & It). injection Im as <- <-. apply H1; auto.
    - intros t m i j w a Im T N Iwa. apply in_map_iff in Im. destruct Im as (t' & Im & It). injection Im as <- <-. apply H2; auto.
    - exact H0.
  Qed.

  Lemma share_pos : forall x y radius t i j, share x y radius t i j <> 0 -> 1 <= share x y radius t i j <= 65535.
  Proof. intros. pose proof (share_range trig x y (sample_radius radius) t i j). lia. Qed.

  (** A fully transparent area: alpha is 0 and the colour is the fixed green that
      marks "no colour". *)
  Theorem C38_transparent : forall canw canr order sf x y radius paint sf' c ts,
    reached trig mix G sf -> any_order order -> sixteen_bit (sf_pix sf') -> reads canr x y radius ts ->
    everywhere (share x y radius) (sf_pix sf') ts (fun p => pa p = 0) ->
    get_color canw canr order sf x y radius paint = Ok (sf', c) -> c = (f0, f1, f0, f0).
  Proof.
    intros canw canr order sf x y radius paint sf' c ts R O S RD EV H.
    destruct (get_color_seen _ _ _ _ _ _ _ _ _ _ R O H) as (ts1 & ts' & RD' & PM & H').
    assert (ts1 = ts) as ->. { destruct RD as (rows & E1 & ->). destruct RD' as (rows' & E2 & ->). congruence. }
    assert (FZ : fadd f0 f0 = f0) by (apply B2SF_inj; vm_compute; reflexivity).
    apply (seen_inv (fun _ a => a = f0)) in H'; auto.
    - destruct H' as (s & Ea & H'). unfold Sample.finish in H'. rewrite Ea in H'.
      destruct (flt f0 (s_w s)) eqn:Ew; [|discriminate H']. cbv zeta in H'. rewrite (zero_div _ Ew) in H'.
      change (flt f0 f0) with false in H'. cbv iota in H'. rewrite clamp_f0 in H'. injection H' as <-. reflexivity.
    - intros t w a It ->. unfold gathered. rewrite over_tile_zsum.
      rewrite (zsum_ext _ _ (fun _ => 0)); [rewrite zsum_const, Z.mul_0_l; exact FZ|].
      intros (i, j) Iij. cbn [fst snd]. apply in_pixels in Iij. destruct (Z.eq_dec (share x y radius t i j) 0) as [->|N]; [reflexivity|].
      rewrite (EV t i j); auto; try apply Iij; [rewrite Z.mul_0_r; reflexivity|].
      apply (Permutation_in _ (Permutation_sym PM)). auto.
    - intros t i j w a It T N ->. rewrite (EV t i j); auto; try apply T.
      + rewrite a_part_zero by (apply share_pos; auto). exact FZ.
      + apply (Permutation_in _ (Permutation_sym PM)). auto.
  Qed.

  Definition bounded_sum (v : f32) : Prop := fin v /\ (0 <= b2r v <= IZR (2 ^ 57))%R.
  Lemma bounded_0 : bounded_sum f0.
  Proof. split; [reflexivity|]. change (b2r f0) with 0%R. split; [lra|]. apply IZR_le. lia. Qed.
  Lemma bounded_add_int : forall s z, bounded_sum s -> 0 <= z <= 2 ^ 32 -> bounded_sum (fadd s (f_of_Z z)).
  Proof.
    intros s z (F & B) Hz. assert (0 <= IZR z <= IZR (2 ^ 32))%R as Bz by (split; apply IZR_le; lia).
    assert (IZR (2 ^ 32) = 4294967296)%R as E32 by reflexivity.
    destruct (f_of_Z_spec z) as (V & Fz). { rewrite Rabs_pos_eq by lra. pose proof bpow127_big. lra. }
    destruct (sat_step s (f_of_Z z)) as (F' & B' & _); auto; [|split; auto].
    rewrite V. split; [apply rnd32_ge_r; [apply rep32_0|lra]|apply rnd32_le_r; [|lra]].
    rewrite <- bpow_Z by lia. apply rep32_bpow. lia.
  Qed.
  Lemma bounded_add : forall s v, bounded_sum s -> fin v -> (0 <= b2r v <= 4)%R -> bounded_sum (fadd s v).
  Proof.
    intros s v (F & B) Fv Bv. assert (IZR (2 ^ 32) = 4294967296)%R as E32 by reflexivity.
    destruct (sat_step s v) as (F' & B' & _); auto; [lra|split; auto].
  Qed.
  Lemma w_part_small : forall m, 0 <= m <= 65535 -> fin (w_part m) /\ (0 <= b2r (w_part m) <= 4)%R.
  Proof.
    intros m Hm. destruct (w_part_val m Hm) as (F & V). split; auto. rewrite V.
    assert (0 <= IZR m <= 65535)%R as B by (split; apply IZR_le; lia). lra.
  Qed.

  (** A fully opaque area: alpha is exactly 1. *)
  Theorem C38_opaque : forall canw canr order sf x y radius paint sf' r g b a ts,
    reached trig mix G sf -> any_order order -> sixteen_bit (sf_pix sf') -> reads canr x y radius ts ->
    everywhere (share x y radius) (sf_pix sf') ts (fun p => pa p = 2 ^ 15) ->
    get_color canw canr order sf x y radius paint = Ok (sf', (r, g, b, a)) -> a = f1.
  Proof.
    intros canw canr order sf x y radius paint sf' r g b a ts R O S RD EV H.
    destruct (get_color_seen _ _ _ _ _ _ _ _ _ _ R O H) as (ts1 & ts' & RD' & PM & H').
    assert (ts1 = ts) as ->. { destruct RD as (rows & E1 & ->). destruct RD' as (rows' & E2 & ->). congruence. }
    apply (seen_inv (fun w a => a = w /\ bounded_sum w)) in H'; auto.
    - destruct H' as (s & (Ea & Fw & Bw) & H'). unfold Sample.finish in H'. rewrite Ea in H'.
      destruct (flt f0 (s_w s)) eqn:Ew; [|discriminate H']. cbv zeta in H'.
      rewrite self_div in H'; auto.
      2:{ rewrite flt_spec in Ew; auto; [|reflexivity]. change (b2r f0) with 0%R in Ew. revert Ew. case Rlt_bool_spec; intros L Ew; [exact L|discriminate Ew]. }
      rewrite clamp_f1 in H'. destruct (flt f0 f1); injection H' as _ _ _ <-; reflexivity.
    - intros t w a0 It (-> & Bw). assert (E : gathered (share x y radius) (sf_pix sf' t) pa t = over_tile (share x y radius t)).
      { unfold gathered. rewrite !over_tile_zsum. apply zsum_ext. intros (i, j) Iij. cbn [fst snd]. apply in_pixels in Iij.
        destruct (Z.eq_dec (share x y radius t i j) 0) as [->|N]; [reflexivity|].
        rewrite (EV t i j); auto; try apply Iij; [|apply (Permutation_in _ (Permutation_sym PM)); auto].
        apply Z.div_mul. unfold ONE. lia. }
      rewrite E. split; auto. apply bounded_add_int; auto.
      pose proof (weight_small trig x y (sample_radius radius) t) as WS. unfold small_ints in *. lia.
    - intros t i j w a0 It T N (-> & Bw). rewrite (EV t i j); auto; try apply T; [|apply (Permutation_in _ (Permutation_sym PM)); auto].
      change (2 ^ 15) with 32768. pose proof (share_pos x y radius t i j N) as SP. rewrite a_part_full by auto. split; auto.
      apply bounded_add; auto; apply w_part_small; lia.
    - split; [reflexivity|apply bounded_0].
  Qed.

  (** In every mode the returned alpha is a number between 0 and 1, and each
      colour is either such a number or a NaN (see [C38_nan_refuted]). *)
  Lemma clamp_range : forall x : f32, is_nan x = true \/ between 0 (clampf x f0 f1) 1.
  Proof.
    intros x. destruct f1_val as (V1 & F1). destruct f0_val as (V0 & F0).
    destruct x as [s|s| |s m e Hx]; [right|right|left; reflexivity|right].
    - replace (clampf (B754_zero s) f0 f1) with (B754_zero s : f32) by (destruct s; apply B2SF_inj; vm_compute; reflexivity).
      split; [reflexivity|]. change (value (B754_zero s)) with 0%R. lra.
    - destruct s.
      + replace (clampf (B754_infinity true) f0 f1) with f0 by (apply B2SF_inj; vm_compute; reflexivity).
        split; auto. change value with (@b2r 24 128). lra.
      + replace (clampf (B754_infinity false) f0 f1) with f1 by (apply B2SF_inj; vm_compute; reflexivity).
        split; auto. change value with (@b2r 24 128). lra.
    - unfold clampf. set (x := B754_finite s m e Hx : f32) in *. assert (fin x) as Fx by reflexivity.
      rewrite (flt_spec f1 x), (flt_spec x f0), V1, V0 by auto. unfold between, finite, value. change (@B2R 24 128) with (@b2r 24 128).
      destruct (Rlt_bool_spec 1 (b2r x)); [split; auto; lra|]. destruct (Rlt_bool_spec (b2r x) 0); split; auto; lra.
  Qed.

  Theorem C38_every_mode : forall canw canr order sf x y radius paint sf' r g b a,
    reached trig mix G sf -> any_order order -> sixteen_bit (sf_pix sf') ->
    get_color canw canr order sf x y radius paint = Ok (sf', (r, g, b, a)) ->
    between 0 a 1 /\
    (is_nan r = true \/ between 0 r 1) /\ (is_nan g = true \/ between 0 g 1) /\ (is_nan b = true \/ between 0 b 1).
  Proof.
    intros canw canr order sf x y radius paint sf' r g b a R O S H.
    destruct (get_color_seen _ _ _ _ _ _ _ _ _ _ R O H) as (ts & ts' & _ & PM & H').
    destruct f1_val as (V1 & F1). destruct f0_val as (V0 & F0).
    assert (Z0 : between 0 f0 1 /\ between 0 f1 1).
    { unfold between, finite. change value with (@b2r 24 128). rewrite V0, V1. repeat split; auto; lra. }
    apply (seen_inv (fun w a => bounded_sum w /\ bounded_sum a /\ (b2r w = 0 \/ bpow radix2 (-15) <= b2r w)%R)) in H'; auto.
    - destruct H' as (s & ((Fw & Bw) & (Fa & Ba) & W0) & H'). unfold Sample.finish in H'.
      destruct (flt f0 (s_w s)) eqn:Ew; [|discriminate H']. cbv zeta in H'.
      rewrite flt_spec in Ew by auto. rewrite V0 in Ew. revert Ew. case Rlt_bool_spec; intros Pw Ew; [clear Ew|discriminate Ew].
      destruct W0 as [W0|W0]; [lra|].
      assert (b2r (s_a s) / b2r (s_w s) <= IZR (2 ^ 57) * 32768)%R as Q.
      { unfold Rdiv. apply Rmult_le_compat; try lra; [left; apply Rinv_0_lt_compat; lra|].
        replace 32768%R with (/ bpow radix2 (-15))%R by (rewrite <- bpow_opp; simpl; lra). apply Rinv_le_contravar; [apply bpow_gt_0|auto]. }
      assert (0 <= b2r (s_a s) / b2r (s_w s))%R as Q0 by (apply Rmult_le_pos; [lra|left; apply Rinv_0_lt_compat; lra]).
      destruct (fdiv_spec (s_a s) (s_w s) Fa) as (E & F); [lra| |].
      { rewrite Rabs_pos_eq by auto. pose proof bpow127_big.
        assert (IZR (2 ^ 57) * 32768 <= 1267650600228229401496703205376)%R by (rewrite <- mult_IZR; apply IZR_le; lia). lra. }
      assert (0 <= b2r (fdiv (s_a s) (s_w s)))%R as Pq by (rewrite E; apply rnd32_ge_r; [apply rep32_0|auto]).
      destruct (clamp01_min _ F Pq) as (Fc & Vc).
      assert (between 0 (clampf (fdiv (s_a s) (s_w s)) f0 f1) 1) as BA.
      { unfold between, finite, value. change (@B2R 24 128) with (@b2r 24 128). rewrite Vc. split; auto. split; [apply Rmin_glb; lra|apply Rmin_l]. }
      assert (CC : forall v : f32, is_nan (clampf v f0 f1) = true \/ between 0 (clampf v f0 f1) 1).
      { intros v. destruct (clamp_range v) as [N|B]; auto. left. destruct v; try discriminate N. reflexivity. }
      destruct (flt f0 (fdiv (s_a s) (s_w s))); injection H' as <- <- <- <-.
      + split; [exact BA|]. split; [apply CC|split; apply CC].
      + split; [exact BA|]. split; [right; apply Z0|split; right; apply Z0].
    - intros t w a0 It (Bw & Ba & W0).
      pose proof (weight_small trig x y (sample_radius radius) t) as WS.
      pose proof (gathered_small trig x y (sample_radius radius) (sf_pix sf' t) pa t (S t) ltac:(simpl; auto)) as GS.
      split; [apply bounded_add_int; auto|]. split; [apply bounded_add_int; auto|].
      assert (0 <= IZR (over_tile (share x y radius t)) <= IZR (2 ^ 32))%R as Bz by (split; apply IZR_le; lia).
      assert (IZR (2 ^ 32) = 4294967296)%R as E32 by reflexivity.
      destruct (f_of_Z_spec (over_tile (share x y radius t))) as (V & Fz). { rewrite Rabs_pos_eq by lra. pose proof bpow127_big. lra. }
      assert (0 <= b2r (f_of_Z (over_tile (share x y radius t))) <= IZR (2 ^ 32))%R as Bv.
      { rewrite V. split; [apply rnd32_ge_r; [apply rep32_0|lra]|apply rnd32_le_r; [|lra]]. rewrite <- bpow_Z by lia. apply rep32_bpow. lia. }
      destruct Bw as (Fw & Bw). destruct (sat_step w _ Fw Fz Bw Bv) as (_ & _ & E). rewrite E.
      destruct W0 as [W0|W0].
      + destruct (Z.eq_dec (over_tile (share x y radius t)) 0) as [Z|N].
        * left. rewrite V, Z, W0. rewrite rnd32_0, Rplus_0_r. apply rnd32_0.
        * right. apply rnd32_ge_r; [apply rep32_bpow; lia|]. rewrite W0, Rplus_0_l, V. apply rnd32_ge_r; [apply rep32_bpow; lia|].
          apply Rle_trans with 1%R; [simpl; lra|]. apply IZR_le. lia.
      + right. apply rnd32_ge_r; [apply rep32_bpow; lia|]. lra.
    - intros t i j w a0 It T N (Bw & Ba & W0). pose proof (share_pos x y radius t i j N) as SP.
      destruct (w_part_small (share x y radius t i j)) as (Fp & Bp); [lia|].
      destruct (a_part_val (share x y radius t i j) (pa (pixel_at (sf_pix sf' t) i j))) as (Fq & Bq); [lia|apply pix_word; simpl; auto; exact (S t)|].
      split; [apply bounded_add; auto|]. split; [apply bounded_add; auto|]. right.
      assert (IZR (2 ^ 32) = 4294967296)%R as E32 by reflexivity.
      destruct Bw as (Fw & Bw). destruct (sat_step w _ Fw Fp Bw) as (_ & _ & E); [lra|]. rewrite E.
      apply rnd32_ge_r; [apply rep32_bpow; lia|].
      destruct (w_part_val (share x y radius t i j)) as (_ & Vp); [lia|]. rewrite Vp.
      assert (1 <= IZR (share x y radius t i j))%R by (apply IZR_le; lia).
      assert (bpow radix2 (-15) = / 32768)%R as -> by (simpl; lra). lra.
    - split; [apply bounded_0|]. split; [apply bounded_0|]. left. reflexivity.
  Qed.

  (** ** No overflow *)
  (** Classic sampling adds up each tile in 32-bit integers.  They never wrap: what
      is added to the float totals is the exact sum over all pixels of the tile, and
      that is below 2^32. *)
  Theorem C38_no_wrap : forall x y radius t mask mem s, sample_mask trig x y radius t = Ok mask ->
    Z.of_nat (length mem) = 64 * 64 * 4 -> Forall (fun w => 0 <= w <= 65535) mem ->
    let sh := SampleSpec.share trig x y radius t in
    let total c := over_tile (fun i j => sh i j * c (pixel_at mem i j) / 2 ^ 15) in
    get_color_pixels_legacy mask mem s =
      Ok (mkSums (fadd (s_w s) (f_of_Z (over_tile sh))) (fadd (s_r s) (f_of_Z (total pr)))
                 (fadd (s_g s) (f_of_Z (total pg))) (fadd (s_b s) (f_of_Z (total pb))) (fadd (s_a s) (f_of_Z (total pa)))) /\
    0 <= over_tile sh < 2 ^ 32 /\ (forall c, In c [pr; pg; pb; pa] -> 0 <= total c < 2 ^ 32).
  Proof.
    intros x y radius t mask mem s H L W sh total. split; [exact (legacy_tile trig x y radius t mask mem s H (conj L W))|]. split.
    - destruct (over_tile_bound sh 65535); [intros; apply share_range|]. lia.
    - intros c I. unfold total. destruct (over_tile_bound (fun i j => sh i j * c (pixel_at mem i j) / 2 ^ 15) 131068); [|lia].
      intros i j T. pose proof (pix_word mem i j c (conj L W) T I). pose proof (share_range trig x y radius t i j) as R. fold sh in R. split.
      + apply Z.div_pos; [apply Z.mul_nonneg_nonneg; lia|lia].
      + apply Z.lt_succ_r. apply Z.div_lt_upper_bound; [lia|]. nia.
  Qed.
End C38.

(** ** Cases and a refutation *)
(** a canvas filled with one colour *)
Definition filled (r g b a : Z) : tile -> list Z := fun _ => concat (repeat [r; g; b; a] (Z.to_nat 4096)).
Definition filled_surface (r g b a : Z) : surf op (list Z) := mkSurf operation_queue_new (filled r g b a).
Definition yes : tile -> bool := fun _ => true.
Definition keep (l : list (tile * list Z)) : list (tile * list Z) := l.
Definition sample (r g b a : Z) (x y radius paint : f32) : outcome (surf op (list Z) * (f32 * f32 * f32 * f32)) :=
  get_color flat no_mix (fun _ _ => f1) (fun _ => 0) yes yes keep (filled_surface r g b a) x y radius paint.
Definition minus_one : f32 := f_of_Z (-1).

Lemma filled_length : forall r g b a t, Z.of_nat (length (filled r g b a t)) = 64 * 64 * 4.
Proof.
  intros r g b a t. unfold filled. assert (Z.of_nat (Z.to_nat 4096) = 4096) as Hn by lia. revert Hn. generalize (Z.to_nat 4096) as n. intros n Hn.
  assert (Z.of_nat (length (concat (repeat [r; g; b; a] n))) = 4 * Z.of_nat n) as ->; [|lia].
  clear. induction n; [reflexivity|]. cbn [repeat concat]. rewrite app_length. cbn [length]. lia.
Qed.
Lemma filled_words : forall r g b a, Forall (fun w => 0 <= w <= 65535) [r; g; b; a] -> sixteen_bit (filled r g b a).
Proof.
  intros r g b a H t. split; [apply filled_length|].
  apply Forall_concat. apply Forall_forall. intros l I. apply repeat_spec in I. subst. exact H.
Qed.
Lemma filled_pixel : forall r g b a t i j, in_tile i j -> pixel_at (filled r g b a t) i j = mkPx r g b a.
Proof.
  intros r g b a t i j (Hi & Hj). unfold pixel_at, filled.
  assert (forall n k m, (k < n)%nat -> nth (4 * k + m) (concat (repeat [r; g; b; a] n)) 0 = nth m [r; g; b; a] 0 \/ (4 <= m)%nat) as N.
  { clear. induction n; intros k m L; [lia|]. destruct (Nat.lt_ge_cases m 4) as [Lm|]; [left|right; auto]. cbn [repeat concat].
    destruct k as [|k].
    - rewrite app_nth1 by (cbn [length]; lia). f_equal.
    - rewrite app_nth2 by (cbn [length]; lia). cbn [length]. replace (4 * S k + m - 4)%nat with (4 * k + m)%nat by lia.
      destruct (IHn k m ltac:(lia)); [auto|lia]. }
  assert (forall m, (m < 4)%nat -> nth (Z.to_nat (4 * (64 * j + i) + Z.of_nat m)) (concat (repeat [r; g; b; a] (Z.to_nat 4096))) 0 = nth m [r; g; b; a] 0) as K.
  { intros m Lm. replace (Z.to_nat (4 * (64 * j + i) + Z.of_nat m)) with (4 * Z.to_nat (64 * j + i) + m)%nat by lia.
    destruct (N (Z.to_nat 4096) (Z.to_nat (64 * j + i)) m); [lia|auto|lia]. }
  f_equal; [exact (K 0%nat ltac:(lia))|exact (K 1%nat ltac:(lia))|exact (K 2%nat ltac:(lia))|exact (K 3%nat ltac:(lia))].
Qed.
Lemma filled_reached : forall r g b a, reached flat no_mix no_turn (filled_surface r g b a).
Proof.
  intros r g b a. destruct (default_symmetry_data no_turn true) as [sym| |] eqn:E0.
  - exists true, 0, (filled r g b a), (mkTS (filled_surface r g b a) (repeat rect0 32) 32 0 sym), [], (mkTS (filled_surface r g b a) (repeat rect0 32) 32 0 sym), [].
    split; [unfold tiled_surface_init; rewrite E0; reflexivity|]. split; [intros t; apply filled_length|]. split; reflexivity.
  - exfalso. assert (match default_symmetry_data no_turn true with Ok _ => true | _ => false end = true) as T by (vm_compute; reflexivity).
    rewrite E0 in T. discriminate T.
  - exfalso. assert (match default_symmetry_data no_turn true with Ok _ => true | _ => false end = true) as T by (vm_compute; reflexivity).
    rewrite E0 in T. discriminate T.
Qed.

(** a colour as three or four booleans: did the test hold? *)
Definition sampled (o : outcome (surf op (list Z) * (f32 * f32 * f32 * f32))) (P : f32 -> f32 -> f32 -> f32 -> bool) : bool :=
  match o with Ok (_, (r, g, b, a)) => P r g b a | _ => false end.
Lemma sampled_ok : forall o P, sampled o P = true -> exists sf r g b a, o = Ok (sf, (r, g, b, a)) /\ P r g b a = true.
Proof. intros [(sf, (((r, g), b), a))| |] P H; try discriminate H. exists sf, r, g, b, a. auto. Qed.

(** "Each colour lies between the smallest and the largest value sampled" is
    false: on an opaque canvas that is everywhere exactly half red (2^14 of 2^15),
    classic sampling with radius 1 returns less than one half, because every
    product is cut off to an integer. *)
Theorem C38_between_refuted : exists sf x y radius paint sf' r g b a,
  reached flat no_mix no_turn sf /\ sixteen_bit (sf_pix sf) /\ sf_q sf = operation_queue_new /\
  (forall t i j, in_tile i j -> pixel_at (sf_pix sf t) i j = mkPx (2 ^ 14) (2 ^ 14) (2 ^ 14) (2 ^ 15)) /\
  flt paint f0 = true /\
  get_color flat no_mix (fun _ _ => f1) (fun _ => 0) yes yes keep sf x y radius paint = Ok (sf', (r, g, b, a)) /\
  finite r /\ (value r < 2 ^ 14 / 2 ^ 15)%R.
Proof.
  destruct (sampled_ok (sample 16384 16384 16384 32768 (f_of_Z 32) (f_of_Z 32) f1 minus_one) (fun r g b a => is_finite r && flt r fhalf)
    ltac:(vm_compute; reflexivity)) as (sf' & r & g & b & a & E & T).
  apply andb_prop in T. destruct T as (Fr & Lr).
  exists (filled_surface 16384 16384 16384 32768), (f_of_Z 32), (f_of_Z 32), f1, minus_one, sf', r, g, b, a.
  split; [apply filled_reached|]. split; [apply filled_words; repeat constructor; lia|]. split; [reflexivity|]. split.
  { intros t i j H. apply filled_pixel. exact H. }
  split; [vm_compute; reflexivity|]. split; [exact E|]. split; [exact Fr|]. destruct fhalf_val as (VH & FH).
  rewrite flt_spec in Lr by auto. rewrite VH in Lr. revert Lr. case Rlt_bool_spec; intros L Lr; [|discriminate Lr].
  change (value r) with (b2r r). lra.
Qed.

(** "Returns numbers" is false when [paint] is a NaN: the colour is a NaN then. *)
Theorem C38_nan_refuted : exists sf x y radius paint sf' r g b a,
  reached flat no_mix no_turn sf /\ sixteen_bit (sf_pix sf) /\
  get_color flat no_mix (fun _ _ => f1) (fun _ => 0) yes yes keep sf x y radius paint = Ok (sf', (r, g, b, a)) /\
  is_nan r = true.
Proof.
  destruct (sampled_ok (sample 16384 16384 16384 32768 (f_of_Z 32) (f_of_Z 32) f1 B754_nan) (fun r g b a => is_nan r)
    ltac:(vm_compute; reflexivity)) as (sf' & r & g & b & a & E & T).
  exists (filled_surface 16384 16384 16384 32768), (f_of_Z 32), (f_of_Z 32), f1, B754_nan, sf', r, g, b, a.
  split; [apply filled_reached|]. split; [apply filled_words; repeat constructor; lia|]. auto.
Qed.

(** Cases: half transparent orange at the corner of four tiles, classic sampling;
    a transparent canvas and an opaque one, newer sampling.  All the hypotheses of
    the theorems hold ([filled_reached], [filled_words]). *)
Example C38_case :
  sampled (sample 16384 8192 0 16384 (f_of_Z 64) (f_of_Z 64) f3 minus_one)
          (fun r g b a => flt (flit 999 1000) r && fle r f1 && flt (flit 499 1000) g && flt g (flit 501 1000) && feq b f0 &&
                          flt (flit 499 1000) a && fle a fhalf) = true.
Proof. vm_compute. reflexivity. Qed.
Example C38_transparent_case :
  sampled (sample 0 0 0 0 (f_of_Z 64) (f_of_Z 64) f3 f1) (fun r g b a => feq r f0 && feq g f1 && feq b f0 && feq a f0) = true.
Proof. vm_compute. reflexivity. Qed.
Example C38_opaque_case :
  sampled (sample 9000 7 0 32768 (f_of_Z 64) (f_of_Z 64) f3 f0) (fun r g b a => feq a f1) = true.
Proof. vm_compute. reflexivity. Qed.
Example C38_hypotheses : forall r g b a, Forall (fun w => 0 <= w <= 65535) [r; g; b; a] ->
  reached flat no_mix no_turn (filled_surface r g b a) /\ any_order keep /\ sixteen_bit (sf_pix (filled_surface r g b a)) /\
  exists ts, reads yes (f_of_Z 64) (f_of_Z 64) f3 ts /\ length ts = 4%nat /\
    forall sh, everywhere sh (sf_pix (filled_surface r g b a)) ts (fun p => pa p = a).
Proof.
  intros r g b a H. split; [apply filled_reached|]. split; [intros l; apply Permutation_refl|]. split; [apply filled_words; auto|].
  exists [(0, 0); (1, 0); (0, 1); (1, 1)]. split; [|split; [reflexivity|]].
  - exists [[(0, 0); (1, 0)]; [(0, 1); (1, 1)]]. split; reflexivity.
  - intros sh t i j It Hi Hj N. cbn [sf_pix filled_surface]. rewrite filled_pixel by (split; assumption). reflexivity.
Qed.

Print Assumptions C38_in_range.
Print Assumptions C38_average_partial.
Print Assumptions C38_transparent.
Print Assumptions C38_opaque.
Print Assumptions C38_every_mode.
Print Assumptions C38_no_wrap.
Print Assumptions C38_between_refuted.
Print Assumptions C38_nan_refuted.
