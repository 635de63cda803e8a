(** Property C46: mixing colours as spectra (helpers.c mix_colors), in exact real
    arithmetic. *)
From Verif Require Import Base F32 Arith Color Spectral.
From Coq Require Import Reals Lra.
From Flocq Require Import Core.Core.
Local Open Scope R_scope.

(** *** The vocabulary *)
Definition colour : Type := (R * R * R)%type.
Definition in_gamut (c : colour) : Prop := let '(r, g, b) := c in 0 <= r <= 1 /\ 0 <= g <= 1 /\ 0 <= b <= 1.
(** [powf]: the power function on positive numbers *)
Definition is_power (powf : R -> R -> R) : Prop := forall x y : R, 0 < x -> powf x y = Rpower x y.
(** the ten reflectances of a colour, and the colour of ten reflectances *)
Definition reflectances (c : colour) : list R := let '(r, g, b) := c in rgb_to_spectral mixR r g b.
Definition seen (sp : list R) : colour := spectral_to_rgb mixR sp.
Definition mixed_colour (powf : R -> R -> R) (last a b : R * R * R * R) (fac mode : R) : R * R * R * R := mix_colors mixR powf last a b fac mode.
Definition rgb (c : R * R * R * R) : colour := fst c.
Definition alpha (c : R * R * R * R) : R := snd c.

Lemma reflectance_range : forall c, in_gamut c -> length (reflectances c) = 10%nat /\ Forall (fun x => 1 / 2000 < x < 107 / 100) (reflectances c).
Proof.
  intros [[r g] b] (Hr & Hg & Hb). split; [reflexivity|]. unfold reflectances, rgb_to_spectral, wgm_offset, WGM_EPSILON, spectral_r_small, spectral_g_small, spectral_b_small.
  cbn [combine map mixR nar wid nadd nsub nmul nofZ dec sng dbl numR car]. repeat (apply Forall_cons; [cbn [mixR nar wid nadd nsub nmul nofZ dec sng dbl numR car]; lra|]). apply Forall_nil.
Qed.
Lemma mix_between : forall powf x y s, is_power powf -> 0 < x -> 0 < y -> 0 <= s <= 1 -> Rmin x y <= powf x s * powf y (1 - s) <= Rmax x y.
Proof.
  intros powf x y s P Hx Hy Hs. rewrite !P by auto. unfold Rpower. rewrite <- exp_plus.
  assert (forall u v, 0 < u -> 0 < v -> u <= v -> u <= exp (s * ln u + (1 - s) * ln v) <= v /\ u <= exp (s * ln v + (1 - s) * ln u) <= v) as K.
  { intros u v Hu Hv L. assert (ln u <= ln v) as Ll by (destruct (Rle_lt_or_eq_dec _ _ L) as [Q|Q]; [left; apply ln_increasing; auto|subst; right; auto]).
    assert (forall p q, p <= q -> exp p <= exp q) as M by (intros p q [Q|Q]; [left; apply exp_increasing; auto|subst; right; auto]).
    assert (0 <= s * (ln v - ln u)) by (apply Rmult_le_pos; lra). assert (0 <= (1 - s) * (ln v - ln u)) by (apply Rmult_le_pos; lra).
    assert (forall w, ln u <= w <= ln v -> u <= exp w <= v) as B by (intros w [B1 B2]; apply M in B1; apply M in B2; rewrite exp_ln in B1, B2 by auto; lra).
    split; apply B; lra. }
  unfold Rmin, Rmax. destruct (Rle_dec x y) as [Q|Q].
  - exact (proj1 (K x y Hx Hy Q)).
  - exact (proj2 (K y x Hy Hx (Rlt_le _ _ (Rnot_le_lt _ _ Q)))).
Qed.

(** the share of the first colour: of its alpha and the factor *)
Definition share (aa ba fac : R) : R := if Req_EM_T aa 0 then 0 else fac * aa / (aa + ba * (1 - fac)).
Lemma share_range : forall aa ba fac, 0 <= aa -> 0 <= ba -> 0 <= fac <= 1 -> 0 <= share aa ba fac <= 1.
Proof.
  intros aa ba fac Ha Hb Hf. unfold share. destruct (Req_EM_T aa 0); [lra|]. assert (0 <= ba * (1 - fac)) by (apply Rmult_le_pos; lra).
  assert (0 <= fac * aa <= aa) as [K1 K2]. { split; [apply Rmult_le_pos; lra|]. rewrite <- (Rmult_1_l aa) at 2. apply Rmult_le_compat_r; lra. }
  assert (0 < aa + ba * (1 - fac)) as D by lra. split; [apply Rmult_le_pos; [auto|left; apply Rinv_0_lt_compat; auto]|].
  apply Rmult_le_reg_r with (aa + ba * (1 - fac)); auto. unfold Rdiv. rewrite Rmult_assoc, Rinv_l by lra. lra.
Qed.
(** the reflectances of the mixture *)
Definition mixture (powf : R -> R -> R) (a b : colour) (s : R) : list R :=
  map (fun p => powf (fst p) s * powf (snd p) (1 - s)) (combine (reflectances a) (reflectances b)).
Lemma clamp01_is : forall x : R, (clamp01 mixR x : R) = Rmax 0 (Rmin 1 x).
Proof.
  intros x. unfold clamp01. cbn [mixR wid nar nlt nofZ sng dbl numR car]. unfold Rmax, Rmin. destruct (Rlt_bool_spec 1 x); destruct (Rle_dec 1 x); try lra.
  - destruct (Rle_dec 0 1); lra.
  - destruct (Rlt_bool_spec x 0); destruct (Rle_dec 0 1); lra.
  - destruct (Rlt_bool_spec x 0); destruct (Rle_dec 0 x); lra.
Qed.
Lemma mix_is : forall powf last a b aa ba fac mode, mixed_colour powf last (a, aa) (b, ba) fac mode =
  let spectral := if Rlt_bool 0 mode then seen (mixture powf a b (share aa ba fac)) else rgb last in
  let out (l x y : R) := l * mode + (1 - mode) * (x * fac + y * (1 - fac)) in
  let '(lr, lg, lb) := spectral in let '(ar, ag, ab) := a in let '(br, bg, bb) := b in
  ((if Rlt_bool mode 1 then (out lr ar br, out lg ag bg, out lb ab bb) else spectral), Rmax 0 (Rmin 1 (fac * aa + (1 - fac) * ba))).
Proof.
  intros powf [[[lr lg] lb] la] [[ar ag] ab] [[br bg] bb] aa ba fac mode. unfold mixed_colour, mix_colors. cbv zeta.
  assert (forall x : R, clamp01 mixR x = Rmax 0 (Rmin 1 x)) as -> by exact clamp01_is.
  match goal with |- context [if @neqb ?A ?x ?y then ?z else ?q] => replace (if @neqb A x y then z else q) with (share aa ba fac : sng mixR) end.
  2:{ unfold share. cbn [mixR wid nar nmul nadd ndiv nsub neqb nofZ sng dbl numR car]. destruct (Req_bool_spec aa 0); destruct (Req_EM_T aa 0); auto; contradiction. }
  unfold mixture, reflectances, rgb. cbn [fst]. cbn [mixR wid nar nmul nadd ndiv nsub nlt nofZ sng dbl numR car].
  destruct (Rlt_bool_spec 0 mode).
  - unfold seen. destruct (spectral_to_rgb mixR _) as [[r g] b]. destruct (Rlt_bool mode 1); reflexivity.
  - destruct (Rlt_bool mode 1); reflexivity.
Qed.
Lemma clamp01d_range : forall x : R, 0 <= (clamp01d mixR x : R) <= 1.
Proof. intros x. unfold clamp01d. cbn [mixR nar nlt nofZ sng dbl numR car]. destruct (Rlt_bool_spec 1 x); [lra|]. destruct (Rlt_bool_spec x 0); lra. Qed.
Lemma seen_gamut : forall sp, in_gamut (seen sp).
Proof. intros sp. unfold seen, spectral_to_rgb, in_gamut. cbv zeta. repeat split; apply clamp01d_range. Qed.

(** Theorem: mixing by 1 gives the spectral rendering of the first colour (unless it
    is transparent), by 0 that of the second. *)
Lemma pow_1 : forall powf l, is_power powf -> Forall (fun x => 0 < x) l -> forall k, length k = length l -> Forall (fun x => 0 < x) k ->
  map (fun p => powf (fst p) 1 * powf (snd p) (1 - 1)) (combine l k) = l /\ map (fun p => powf (fst p) 0 * powf (snd p) (1 - 0)) (combine k l) = l.
Proof.
  intros powf l P H. induction H as [|x l Hx _ IH]; intros [|y k] Hl Hk; try discriminate; [split; reflexivity|]. apply Forall_inv in Hk as Hy. apply Forall_inv_tail in Hk.
  destruct (IH k ltac:(cbn in Hl; lia) Hk) as [I1 I2]. cbn [combine map fst snd]. split.
  - rewrite I1. f_equal. rewrite !P by auto. rewrite Rpower_1 by auto. replace (1 - 1) with 0 by ring. rewrite Rpower_O by auto. ring.
  - rewrite I2. f_equal. rewrite !P by auto. rewrite Rpower_O by auto. replace (1 - 0) with 1 by ring. rewrite Rpower_1 by auto. ring.
Qed.
Theorem C46_ends : forall powf last a b aa ba, is_power powf -> in_gamut a -> in_gamut b ->
  (aa <> 0 -> rgb (mixed_colour powf last (a, aa) (b, ba) 1 1) = seen (reflectances a)) /\
  rgb (mixed_colour powf last (a, aa) (b, ba) 0 1) = seen (reflectances b).
Proof.
  intros powf last a b aa ba P Ha Hb. destruct (reflectance_range a Ha) as [La Fa]. destruct (reflectance_range b Hb) as [Lb Fb].
  assert (forall l, Forall (fun x => 1 / 2000 < x < 107 / 100) l -> Forall (fun x => 0 < x) l) as K by (intros l H; eapply Forall_impl; [|exact H]; cbn; intros; lra).
  apply K in Fa. apply K in Fb. clear K. rewrite !mix_is. cbv zeta. rewrite (Rlt_bool_true 0 1), (Rlt_bool_false 1 1) by lra. split.
  - intros N. assert (share aa ba 1 = 1) as ->. { unfold share. destruct (Req_EM_T aa 0); [contradiction|]. field. replace (aa + ba * (1 - 1)) with aa by ring. auto. }
    unfold mixture. rewrite (proj1 (pow_1 powf (reflectances a) P Fa (reflectances b) ltac:(lia) Fb)).
    destruct (seen (reflectances a)) as [[? ?] ?]. destruct a as [[? ?] ?]. destruct b as [[? ?] ?]. reflexivity.
  - assert (share aa ba 0 = 0) as ->. { unfold share. destruct (Req_EM_T aa 0); [auto|]. unfold Rdiv. ring. }
    unfold mixture. rewrite (proj2 (pow_1 powf (reflectances b) P Fb (reflectances a) ltac:(lia) Fa)).
    destruct (seen (reflectances b)) as [[? ?] ?]. destruct a as [[? ?] ?]. destruct b as [[? ?] ?]. reflexivity.
Qed.

(** Theorem: every reflectance of the mixture lies between those of the two
    colours. *)
Theorem C46_between : forall powf a b aa ba fac, is_power powf -> in_gamut a -> in_gamut b -> 0 <= aa -> 0 <= ba -> 0 <= fac <= 1 ->
  Forall2 (fun m p => Rmin (fst p) (snd p) <= m <= Rmax (fst p) (snd p)) (mixture powf a b (share aa ba fac)) (combine (reflectances a) (reflectances b)) /\
  length (mixture powf a b (share aa ba fac)) = 10%nat.
Proof.
  intros powf a b aa ba fac P Ha Hb Haa Hba Hf. destruct (reflectance_range a Ha) as [La Fa]. destruct (reflectance_range b Hb) as [Lb Fb].
  pose proof (share_range aa ba fac Haa Hba Hf) as Hs. split; [|unfold mixture; rewrite map_length, combine_length, La, Lb; reflexivity].
  unfold mixture. clear La Lb. revert Fa Fb. generalize (reflectances a) (reflectances b). intros l. induction l as [|x l IH]; intros [|y k] Fl Fk; cbn [combine map]; constructor.
  - cbn [fst snd]. apply mix_between; auto; [apply Forall_inv in Fl|apply Forall_inv in Fk]; cbn in *; lra.
  - apply IH; [apply Forall_inv_tail in Fl|apply Forall_inv_tail in Fk]; auto.
Qed.

(** Theorem: the result is a colour whatever the two colours, and between black and
    white; the alpha is the linear mixture. *)
Theorem C46_gamut : forall powf last a b aa ba fac mode, in_gamut a -> in_gamut b -> 0 <= aa <= 1 -> 0 <= ba <= 1 -> 0 <= fac <= 1 -> 0 <= mode <= 1 ->
  in_gamut (rgb last) ->
  in_gamut (rgb (mixed_colour powf last (a, aa) (b, ba) fac mode)) /\ alpha (mixed_colour powf last (a, aa) (b, ba) fac mode) = fac * aa + (1 - fac) * ba.
Proof.
  intros powf last a b aa ba fac mode Ha Hb Haa Hba Hf Hm Hl. rewrite mix_is. cbv zeta.
  assert (in_gamut (if Rlt_bool 0 mode then seen (mixture powf a b (share aa ba fac)) else rgb last)) as K by (destruct (Rlt_bool 0 mode); [apply seen_gamut|exact Hl]). revert K.
  generalize (if Rlt_bool 0 mode then seen (mixture powf a b (share aa ba fac)) else rgb last). intros [[lr lg] lb] (K1 & K2 & K3).
  destruct a as [[ar ag] ab]. destruct b as [[br bg] bb]. destruct Ha as (A1 & A2 & A3). destruct Hb as (B1 & B2 & B3). split.
  - unfold rgb. cbn [fst]. assert (forall l x y, 0 <= l <= 1 -> 0 <= x <= 1 -> 0 <= y <= 1 -> 0 <= l * mode + (1 - mode) * (x * fac + y * (1 - fac)) <= 1) as Q.
    { intros l x y Q1 Q2 Q3. assert (0 <= x * fac + y * (1 - fac) <= 1) as Q4.
      { assert (0 <= x * fac <= 1 * fac) by (split; [apply Rmult_le_pos; lra|apply Rmult_le_compat_r; lra]). assert (0 <= y * (1 - fac) <= 1 * (1 - fac)) by (split; [apply Rmult_le_pos; lra|apply Rmult_le_compat_r; lra]). lra. }
      assert (0 <= l * mode <= 1 * mode) by (split; [apply Rmult_le_pos; lra|apply Rmult_le_compat_r; lra]).
      assert (0 <= (1 - mode) * (x * fac + y * (1 - fac)) <= (1 - mode) * 1) by (split; [apply Rmult_le_pos; lra|apply Rmult_le_compat_l; lra]). lra. }
    destruct (Rlt_bool mode 1); repeat split; try (apply Q; auto); tauto || lra.
  - cbn [alpha snd]. assert (0 <= fac * aa <= fac * 1) by (split; [apply Rmult_le_pos; lra|apply Rmult_le_compat_l; lra]). assert (0 <= (1 - fac) * ba <= (1 - fac) * 1) by (split; [apply Rmult_le_pos; lra|apply Rmult_le_compat_l; lra]).
    rewrite Rmin_right, Rmax_right by lra. reflexivity.
Qed.
(** Theorem: unless the mode is negative, what was mixed before (anywhere in the
    process) does not matter; a negative mode lets it show. *)
Theorem C46_no_history : forall powf last last' a b fac mode, 0 <= mode -> mixed_colour powf last a b fac mode = mixed_colour powf last' a b fac mode.
Proof.
  intros powf last last' [a aa] [b ba] fac mode Hm. rewrite !mix_is. cbv zeta. destruct (Rlt_bool_spec 0 mode) as [K|K]; [reflexivity|]. assert (mode = 0) as -> by lra. rewrite (Rlt_bool_true 0 1) by lra.
  destruct (rgb last) as [[? ?] ?]. destruct (rgb last') as [[? ?] ?]. destruct a as [[? ?] ?]. destruct b as [[? ?] ?]. rewrite !Rmult_0_r. reflexivity.
Qed.
Theorem C46_history_refuted : forall powf, exists last last' a b fac mode, in_gamut (rgb last) /\ in_gamut (rgb last') /\ mixed_colour powf last a b fac mode <> mixed_colour powf last' a b fac mode.
Proof.
  intros powf. exists (0, 0, 0, 0), (1, 0, 0, 0), (0, 0, 0, 0), (0, 0, 0, 0), 0, (-1). split; [cbn; lra|]. split; [cbn; lra|]. intros H. apply (f_equal (fun c => fst (fst (fst c)))) in H. revert H.
  change (0, 0, 0, 0) with ((0, 0, 0), 0). rewrite !mix_is. cbv zeta. unfold rgb. cbn [fst]. rewrite (Rlt_bool_false 0 (-1)), (Rlt_bool_true (-1) 1) by lra. cbn [fst]. lra.
Qed.
(** Theorem: the spectral rendering of a colour is that colour up to 1/5000 in each
    component (less than a tenth of an 8-bit step), so by [C46_ends] mixing by 1 or 0
    gives back the colours themselves up to that. *)
Definition close (c c' : colour) : Prop := let '(r, g, b) := c in let '(r', g', b') := c' in Rabs (r' - r) <= 1 / 5000 /\ Rabs (g' - g) <= 1 / 5000 /\ Rabs (b' - b) <= 1 / 5000.
Lemma clamp_close : forall x v : R, 0 <= x <= 1 -> Rabs (v - x) <= 1 / 5000 -> Rabs ((clamp01d mixR v : R) - x) <= 1 / 5000.
Proof.
  intros x v Hx Hv. apply Rabs_le_inv in Hv. unfold clamp01d. cbn [mixR nar nlt nofZ sng dbl numR car]. apply Rabs_le. destruct (Rlt_bool_spec 1 v); [lra|]. destruct (Rlt_bool_spec v 0); lra.
Qed.
Theorem C46_round_trip : forall c, in_gamut c -> close c (seen (reflectances c)).
Proof.
  intros [[r g] b] (Hr & Hg & Hb). unfold seen, reflectances, spectral_to_rgb. cbv zeta. unfold close.
  unfold dot, rgb_to_spectral, wgm_offset, WGM_EPSILON, spectral_r_small, spectral_g_small, spectral_b_small, T_matrix_r, T_matrix_g, T_matrix_b.
  cbn [combine map fold_left fst snd mixR nar wid nadd nsub nmul ndiv nofZ dec sng dbl numR car].
  repeat split; apply clamp_close; auto; apply Rabs_le; replace (/ (1 - 1 / 1000)) with (1000 / 999) by field; unfold Rdiv at 1; lra.
Qed.
(** *** A case: an opaque red mixed half and half with an opaque blue *)
Example C46_case : let red : colour := (1, 0, 0) in let blue : colour := (0, 0, 1) in
  in_gamut red /\ in_gamut blue /\ is_power Rpower /\ share 1 1 (1 / 2) = 1 / 3 /\ reflectances red <> reflectances blue.
Proof.
  cbv zeta. split; [cbn; lra|]. split; [cbn; lra|]. split; [intros x y _; reflexivity|]. split; [unfold share; destruct (Req_EM_T 1 0); lra|].
  intros H. apply (f_equal (fun l => nth 0 l 0)) in H. revert H. unfold reflectances, rgb_to_spectral, wgm_offset, WGM_EPSILON, spectral_r_small, spectral_g_small, spectral_b_small.
  cbn [combine map nth mixR nar wid nadd nsub nmul ndiv nofZ dec sng dbl numR car]. lra.
Qed.

Print Assumptions C46_ends.
Print Assumptions C46_between.
Print Assumptions C46_gamut.
Print Assumptions C46_no_history.
Print Assumptions C46_history_refuted.
Print Assumptions C46_round_trip.
