(** The colour conversions between RGB, HSV and HSL, bit exact: they are defined
    and their results are numbers between 0 and 1, in spite of rounding. *)
From Verif Require Import Base F32 F32Proofs Arith Color Mapping Settings Spectral Brush BrushProofs P_Abort P_Limits StepFacts EaselNum EaselDab.
From Coq Require Import Reals Lra Psatz.
From Flocq Require Import Core.Core IEEE754.BinarySingleNaN.
From Flocq Require Import Relative Plus_error Mult_error.
Local Open Scope Z_scope.

Definition u24 : R := (/ 16777216)%R.
Definition unit3 (c : f32 * f32 * f32) : Prop := let '(x, y, z) := c in zf 0 x 1 /\ zf 0 y 1 /\ zf 0 z 1.

(** 1 + 2^-24 is half way to the next float and goes back to 1 *)
Lemma one_up : forall x, (x <= 1 + u24)%R -> (rnd32 x <= 1)%R.
Proof.
  intros x H. apply Rle_trans with (rnd32 (1 + u24)); [apply rnd32_le; exact H|].
  set (u := fdiv f1 (f_of_Z 16777216)). assert (fadd f1 u = f1) as E by (apply B2SF_inj; vm_compute; reflexivity).
  destruct f1_val as (V1 & F1). destruct (f_of_Z_exact 16777216) as (V2 & F2); [lia|].
  assert (rep32 u24) as Ru by (change u24 with (bpow radix2 (-24)); apply rep32_bpow; lia).
  destruct (fdiv_spec f1 (f_of_Z 16777216) F1) as (Vu & Fu); [rewrite V2; lra| |].
  { rewrite V1, V2. replace (1 / 16777216)%R with u24 by (unfold u24; field). rewrite Rabs_pos_eq by (unfold u24; lra). apply Rle_trans with 1%R; [unfold u24; lra|]. apply (bpow_le radix2 0 127). lia. }
  rewrite V1, V2 in Vu. replace (1 / 16777216)%R with u24 in Vu by (unfold u24; field). rewrite rnd32_id in Vu by exact Ru. fold u in Vu, Fu.
  destruct (fadd_spec f1 u F1 Fu) as (Va & _). { rewrite V1, Vu, Rabs_pos_eq by (unfold u24; lra). apply Rle_trans with (bpow radix2 1); [unfold u24; simpl; lra|]. apply bpow_le. lia. }
  rewrite E, V1, Vu in Va. rewrite <- Va. lra.
Qed.

(** *** Differences of floats *)
Lemma diff_grid : forall x y : f32, exists j, (b2r x - b2r y = IZR j * bpow radix2 (-149))%R.
Proof.
  assert (forall x : f32, exists j, b2r x = (IZR j * bpow radix2 (-149))%R) as G.
  { intros x. pose proof (rep32_b2r x) as H. unfold rep32, generic_format in H. set (m := Ztrunc _) in H. set (e := cexp _ _ _) in H. assert (-149 <= e) as He by (unfold e, cexp, SpecFloat.fexp, SpecFloat.emin; lia). clearbody m e. rewrite H. unfold F2R. cbn [Fnum Fexp].
    exists (m * 2 ^ (e + 149)). rewrite mult_IZR, <- (bpow_Z (e + 149)) by lia. rewrite Rmult_assoc, <- bpow_plus. replace (e + 149 + -149) with e by lia. reflexivity. }
  intros x y. destruct (G x) as (a & ->). destruct (G y) as (b & ->). exists (a - b). rewrite minus_IZR. ring.
Qed.
(** a positive difference is rounded with a small relative error only *)
Lemma diff32 : forall x y : f32, (0 <= b2r x - b2r y)%R -> (rnd32 (b2r x - b2r y) <= 11 / 10 * (b2r x - b2r y))%R.
Proof.
  intros x y H. set (t := (b2r x - b2r y)%R) in *. destruct (Rle_lt_dec t (bpow radix2 (24 + -149))) as [Lo|Hi].
  - rewrite rnd32_id; [lra|]. unfold t, Rminus. apply FLT_format_plus_small; [exact eq_refl|apply rep32_b2r|apply rep32_opp, rep32_b2r|]. change (Rabs t <= bpow radix2 (24 + -149))%R. rewrite Rabs_pos_eq by exact H. exact Lo.
  - pose proof (relative_error_N_FLT radix2 (-149) 24 eq_refl (fun x => negb (Z.even x)) t) as Er. rewrite (Rabs_pos_eq t) in Er by lra.
    change (round radix2 (FLT_exp (-149) 24) ZnearestE t) with (rnd32 t) in Er. assert (bpow radix2 (-149 + 24 - 1) <= t)%R as Hl by (apply Rle_trans with (2 := Rlt_le _ _ Hi); apply bpow_le; lia).
    specialize (Er Hl). change (bpow radix2 (- (24) + 1)) with (/ 8388608)%R in Er. apply Rabs_le_inv in Er. lra.
Qed.
Lemma diff64 : forall x y : f32, (0 < b2r x - b2r y)%R -> (0 < 9 / 10 * (b2r x - b2r y) <= rnd64 (b2r x - b2r y))%R.
Proof.
  intros x y H. destruct (diff_grid x y) as (j & Ej). set (t := (b2r x - b2r y)%R) in *. split; [lra|].
  assert (bpow radix2 (-149) <= t)%R as Ht.
  { pose proof (bpow_gt_0 radix2 (-149)). assert (1 <= j) as Hj. { apply Z.nlt_ge. intros N. assert (IZR j <= 0)%R by (apply IZR_le; lia). rewrite Ej in H. pose proof (Rmult_le_compat_r _ _ _ (Rlt_le _ _ H0) H1). lra. }
    apply IZR_le in Hj. rewrite Ej. pose proof (Rmult_le_compat_r _ _ _ (Rlt_le _ _ H0) Hj). lra. }
  pose proof (relative_error_N_FLT radix2 (-1074) 53 eq_refl (fun x => negb (Z.even x)) t) as Er. rewrite (Rabs_pos_eq t) in Er by lra.
  change (round radix2 (FLT_exp (-1074) 53) ZnearestE t) with (rnd64 t) in Er. assert (bpow radix2 (-1074 + 53 - 1) <= t)%R as Hl by (apply Rle_trans with (2 := Ht); apply bpow_le; lia).
  specialize (Er Hl). change (bpow radix2 (- (53) + 1)) with (/ 4503599627370496)%R in Er. apply Rabs_le_inv in Er. lra.
Qed.

(** *** The largest and the smallest of three *)
Lemma max3 : forall r g b : f32, zf 0 r 1 -> zf 0 g 1 -> zf 0 b 1 ->
  zf 0 (cmax3 mix64 r g b) 1 /\ (b2r r <= b2r (cmax3 mix64 r g b : f32) /\ b2r g <= b2r (cmax3 mix64 r g b : f32) /\ b2r b <= b2r (cmax3 mix64 r g b : f32))%R.
Proof.
  intros r g b (Fr & Hr) (Fg & Hg) (Fb & Hb). unfold cmax3, cmax. change (@nlt (sng mix64)) with flt. rewrite !flt_spec by auto. unfold zf.
  destruct (Rlt_bool_spec (b2r g) (b2r r)); [destruct (Rlt_bool_spec (b2r b) (b2r r))|destruct (Rlt_bool_spec (b2r b) (b2r g))]; repeat split; auto; lra.
Qed.
Lemma min3 : forall r g b : f32, zf 0 r 1 -> zf 0 g 1 -> zf 0 b 1 ->
  zf 0 (cmin3 mix64 r g b) 1 /\ (b2r (cmin3 mix64 r g b : f32) <= b2r r /\ b2r (cmin3 mix64 r g b : f32) <= b2r g /\ b2r (cmin3 mix64 r g b : f32) <= b2r b)%R.
Proof.
  intros r g b (Fr & Hr) (Fg & Hg) (Fb & Hb). unfold cmin3, cmin. change (@nlt (sng mix64)) with flt. rewrite !flt_spec by auto. unfold zf.
  destruct (Rlt_bool_spec (b2r r) (b2r g)); [destruct (Rlt_bool_spec (b2r r) (b2r b))|destruct (Rlt_bool_spec (b2r g) (b2r b))]; repeat split; auto; lra.
Qed.
Lemma clamp_zf : forall v : f32, fin v -> zf 0 (clamp01 mix64 v) 1.
Proof. intros v F. destruct (clamp01_fin v F) as (G & H). split; [exact G|exact H]. Qed.

Lemma ratio1 : forall a b : R, (0 < b)%R -> (- b <= a <= b)%R -> (-1 <= a / b <= 1)%R.
Proof. intros a b Hb H. split; apply Rmult_le_reg_r with b; auto; unfold Rdiv; rewrite Rmult_assoc, Rinv_l by lra; lra. Qed.
Lemma ratio01 : forall a b : R, (0 < b)%R -> (0 <= a <= b)%R -> (0 <= a / b <= 1)%R.
Proof. intros a b Hb H. split; apply Rmult_le_reg_r with b; auto; unfold Rdiv; rewrite Rmult_assoc, Rinv_l by lra; lra. Qed.

(** *** RGB to HSV *)
Lemma to_hsv_unit : forall r g b : f32, fin r -> fin g -> fin b -> unit3 (rgb_to_hsv mix64 (r, g, b)).
Proof.
  intros r g b Fr Fg Fb. unfold rgb_to_hsv. pose proof (clamp_zf r Fr) as Zr. pose proof (clamp_zf g Fg) as Zg. pose proof (clamp_zf b Fb) as Zb.
  set (r' := clamp01 mix64 r) in *. set (g' := clamp01 mix64 g) in *. set (b' := clamp01 mix64 b) in *. clearbody r' g' b'. clear r g b Fr Fg Fb. change (car (sng mix64)) with f32 in *.
  destruct (max3 r' g' b' Zr Zg Zb) as (Zx & Xr & Xg & Xb). destruct (min3 r' g' b' Zr Zg Zb) as (Zn & Nr & Ng & Nb).
  set (mx := cmax3 mix64 r' g' b') in *. set (mn := cmin3 mix64 r' g' b') in *. clearbody mx mn. change (car (sng mix64)) with f32 in *. cbv zeta.
  change (@nlt (dbl mix64)) with dlt. change (@neqb (sng mix64)) with feq. change (@nar mix64) with f_of_d. change (@wid mix64) with d_of_f. change (@nofZ (dbl mix64)) with d_of_Z. change (@nofZ (sng mix64)) with f_of_Z. change (@dec mix64) with dlit.
  change (@nsub (sng mix64)) with fsub. change (@ndiv (sng mix64)) with fdiv. change (@ndiv (dbl mix64)) with ddiv. change (@nadd (dbl mix64)) with dadd.
  assert (zf 0 (f_of_Z 0) 1) as Z0 by (eapply zf_weak; [apply zf_Z; lia|lia|lia]).
  destruct Zx as (Fx & Hx). destruct Zn as (Fn & Hn). simpl in Hx, Hn.
  destruct (zf_sub 0 1 mx mn Fx Fn) as ((Fd & Hd) & Vd); [split; lia|simpl; lra|]. set (dl := fsub mx mn) in *. clearbody dl. simpl in Hd.
  destruct (dlt (dlit 1 10000) (d_of_f dl)) eqn:T; [|split; [exact Z0|split; [exact Z0|split; [exact Fx|simpl; lra]]]].
  assert (0 < b2r dl)%R as Pd.
  { destruct (d_of_f_exact dl Fd) as (Wd & Gd). assert (dconst_test 0 1 (dlit 1 10000) = true) as C by (vm_compute; reflexivity). destruct (dconst 0 1 _ ltac:(lia) ltac:(lia) C) as (Fl & _).
    assert (dlt (d_of_Z 0) (dlit 1 10000) = true) as C2 by (vm_compute; reflexivity). destruct (zd_Z 0) as ((G0 & _) & W0); [lia|]. rewrite dlt_spec in C2 by auto. rewrite dlt_spec in T by auto.
    destruct (Rlt_bool_spec (b2r (d_of_Z 0)) (b2r (dlit 1 10000))) as [A|]; [|discriminate C2]. destruct (Rlt_bool_spec (b2r (dlit 1 10000)) (b2r (d_of_f dl))) as [B|]; [|discriminate T]. rewrite W0 in A. rewrite Wd in B. simpl in A. lra. }
  assert (forall x y : f32, zf 0 x 1 -> zf 0 y 1 -> (b2r mn <= b2r x <= b2r mx)%R -> (b2r mn <= b2r y <= b2r mx)%R -> zf (-1) (fdiv (fsub x y) dl) 1) as Q.
  { intros x y (Gx & Bx) (Gy & By) Ix Iy. simpl in Bx, By. destruct (zf_sub (-1) 1 x y Gx Gy) as ((Fs & _) & Vs); [split; lia|simpl; lra|].
    apply zf_div; auto; [lra|split; lia|]. apply ratio1; [exact Pd|]. rewrite Vs, Vd. split; [|apply rnd32_le; lra].
    rewrite <- rnd32_opp. apply rnd32_le. lra. }
  set (h := if feq r' mx then _ else _). assert (zf 0 h 6) as Zh.
  { unfold h. clear h.
    assert (forall c (x : f32), Z.abs c <= 100 -> zf (-1) x 1 -> zf (c - 1) (f_of_d (dadd (d_of_Z c) (d_of_f x))) (c + 1)) as A.
    { intros c x Hc (Gx & Bx). destruct (d_of_f_exact x Gx) as (Wx & Gx'). destruct (zd_Z c) as ((Gc & _) & Wc); [lia|]. destruct (zd_add (c - 1) (c + 1) (d_of_Z c) (d_of_f x) Gc Gx') as (Za & _); [split; lia|rewrite Wc, Wx, minus_IZR, plus_IZR; simpl in Bx; lra|].
      apply (zf_nar _ _ _ Za). split; lia. }
    destruct (feq r' mx).
    - destruct (Q g' b' Zg Zb ltac:(lra) ltac:(lra)) as (Fq & Hq). set (q := fdiv (fsub g' b') dl) in *. clearbody q. simpl in Hq. destruct (d_of_f_exact q Fq) as (Wq & Gq). destruct (zd_Z 0) as ((G0 & _) & W0); [lia|].
      rewrite dlt_spec, Wq, W0 by auto. destruct (Rlt_bool_spec (b2r q) 0); [|split; [exact Fq|simpl; lra]].
      destruct (zd_Z 6) as ((G6 & _) & W6); [lia|]. destruct (zd_add 0 6 (d_of_f q) (d_of_Z 6) Gq G6) as (Za & _); [split; lia|rewrite W6, Wq; simpl; lra|]. apply (zf_nar _ _ _ Za). split; lia.
    - destruct (feq g' mx); [eapply zf_weak; [apply (A 2); [lia|apply Q; auto; lra]|lia|lia]|].
      destruct (feq b' mx); [eapply zf_weak; [apply (A 4); [lia|apply Q; auto; lra]|lia|lia]|]. eapply zf_weak; [exact Z0|lia|lia]. }
  clearbody h. split; [|split; [|split; [exact Fx|simpl; lra]]].
  - destruct (zd_wid 0 6 h Zh) as ((Gh & Bh) & _). simpl in Bh. destruct (zd_Z 6) as ((G6 & _) & W6); [lia|]. destruct (zd_div 0 1 (d_of_f h) (d_of_Z 6) Gh G6) as (Zq & _); [rewrite W6; simpl; lra|split; lia|rewrite W6; simpl; apply ratio01; lra|]. apply (zf_nar _ _ _ Zq). split; lia.
  - apply zf_div; auto; [|split; lia|].
    + assert (b2r dl <= b2r mx)%R; [|lra]. rewrite Vd. apply rnd32_le_r; [apply rep32_b2r|lra].
    + assert (b2r dl <= b2r mx)%R by (rewrite Vd; apply rnd32_le_r; [apply rep32_b2r|lra]). apply ratio01; lra.
Qed.

(** *** RGB to HSL *)
Lemma to_hsl_unit : forall r g b : f32, fin r -> fin g -> fin b -> unit3 (rgb_to_hsl mix64 (r, g, b)).
Proof.
  intros r g b Fr Fg Fb. unfold rgb_to_hsl. pose proof (clamp_zf r Fr) as Zr. pose proof (clamp_zf g Fg) as Zg. pose proof (clamp_zf b Fb) as Zb.
  set (r' := clamp01 mix64 r) in *. set (g' := clamp01 mix64 g) in *. set (b' := clamp01 mix64 b) in *. clearbody r' g' b'. clear r g b Fr Fg Fb. change (car (sng mix64)) with f32 in *.
  destruct (max3 r' g' b' Zr Zg Zb) as (Zx & Xr & Xg & Xb). destruct (min3 r' g' b' Zr Zg Zb) as (Zn & Nr & Ng & Nb).
  set (mx := cmax3 mix64 r' g' b') in *. set (mn := cmin3 mix64 r' g' b') in *. clearbody mx mn. change (car (sng mix64)) with f32 in *. cbv zeta.
  change (@nlt (dbl mix64)) with dlt. change (@nle (dbl mix64)) with dle. change (@neqb (dbl mix64)) with deq. change (@nar mix64) with f_of_d. change (@wid mix64) with d_of_f. change (@nofZ (dbl mix64)) with d_of_Z. change (@nofZ (sng mix64)) with f_of_Z. change (@dec mix64) with dlit.
  change (@nsub (sng mix64)) with fsub. change (@ndiv (dbl mix64)) with ddiv. change (@nadd (dbl mix64)) with dadd. change (@nsub (dbl mix64)) with dsub.
  assert (zf 0 (f_of_Z 0) 1) as Z0 by (eapply zf_weak; [apply zf_Z; lia|lia|lia]). destruct (zd_Z 0) as ((G0 & _) & W0); [lia|]. destruct (zd_Z 1) as ((G1 & _) & W1); [lia|]. destruct (zd_Z 2) as ((G2 & _) & W2); [lia|].
  destruct (zd_wid 0 1 mx Zx) as ((Gx & Bx) & Wx). destruct (zd_wid 0 1 mn Zn) as ((Gn & Bn) & Wn). simpl in Bx, Bn.
  destruct (zd_add 0 2 (d_of_f mx) (d_of_f mn) Gx Gn) as ((Fs & Hs) & Vs); [split; lia|simpl; lra|]. simpl in Hs.
  destruct (zd_div 0 1 _ (d_of_Z 2) Fs G2) as (Zl & _); [rewrite W2; simpl; lra|split; lia|rewrite W2; simpl; lra|]. destruct (zf_nar _ _ _ Zl) as (Zl' & _); [split; lia|]. set (l := f_of_d (ddiv (dadd (d_of_f mx) (d_of_f mn)) (d_of_Z 2))) in *. clearbody l. clear Zl.
  rewrite (deq_spec (d_of_f mx) (d_of_f mn)) by auto. rewrite Wx, Wn. destruct (Req_bool_spec (b2r mx) (b2r mn)) as [|Ne]; [split; [exact Z0|split; [exact Z0|exact Zl']]|].
  assert (0 < b2r mx - b2r mn)%R as Pd by lra. pose proof (diff64 mx mn Pd) as D64. pose proof (diff32 mx mn ltac:(lra)) as D32.
  destruct (zd_sub 0 1 (d_of_f mx) (d_of_f mn) Gx Gn) as ((Fd & Hd) & Vd); [split; lia|simpl; lra|]. rewrite Wx, Wn in Vd, Vs. set (dl := dsub (d_of_f mx) (d_of_f mn)) in *. set (sm := dadd (d_of_f mx) (d_of_f mn)) in *. clearbody dl sm. simpl in Hd.
  assert (0 < b2r dl)%R as Pdl by lra. rewrite (deq_spec dl (d_of_Z 0)), W0 by auto. destruct (Req_bool_spec (b2r dl) 0) as [Eq|_]; [exfalso; lra|].
  split; [|split; [|exact Zl']].
  - assert (forall x y : f32, zf 0 x 1 -> zf 0 y 1 -> (b2r mn <= b2r x <= b2r mx)%R -> (b2r mn <= b2r y <= b2r mx)%R -> zd (-2) (ddiv (d_of_f (fsub x y)) dl) 2) as Q.
    { intros x y (Fx' & Bx') (Fy' & By') Ix Iy. simpl in Bx', By'. destruct (zf_sub (-1) 1 x y Fx' Fy') as ((Fs' & _) & Vs'); [split; lia|simpl; lra|]. destruct (d_of_f_exact _ Fs') as (Wq & Gq).
      apply zd_div; auto; [lra|split; lia|]. rewrite Wq, Vs'. assert (- rnd32 (b2r mx - b2r mn) <= rnd32 (b2r x - b2r y) <= rnd32 (b2r mx - b2r mn))%R as I.
      { split; [rewrite <- rnd32_opp; apply rnd32_le; lra|apply rnd32_le; lra]. }
      change (IZR (-2)) with (-2)%R. set (a := rnd32 (b2r x - b2r y)) in *. set (bb := b2r dl) in *. assert (- (2 * bb) <= a <= 2 * bb)%R as K by lra. clear - K Pdl.
      split; apply Rmult_le_reg_r with bb; auto; unfold Rdiv; rewrite Rmult_assoc, Rinv_l by lra; lra. }
    set (h := if deq (d_of_f r') _ then _ else _). assert (zf (-2) h 6) as (Fh & Hh).
    { unfold h. clear h.
      assert (forall c (x : f64), Z.abs c <= 100 -> zd (-2) x 2 -> zf (c - 2) (f_of_d (dadd (d_of_Z c) x)) (c + 2)) as A.
      { intros c x Hc (Gx' & Bx'). destruct (zd_Z c) as ((Gc & _) & Wc); [lia|]. destruct (zd_add (c - 2) (c + 2) (d_of_Z c) x Gc Gx') as (Za & _); [split; lia|rewrite Wc, minus_IZR, plus_IZR; simpl in Bx'; lra|].
        apply (zf_nar _ _ _ Za). split; lia. }
      destruct (deq (d_of_f r') _); [eapply zf_weak; [apply (zf_nar (-2) 2); [apply Q; auto; lra|split; lia]|lia|lia]|].
      destruct (deq (d_of_f g') _); [eapply zf_weak; [apply (A 2); [lia|apply Q; auto; lra]|lia|lia]|].
      destruct (deq (d_of_f b') _); [eapply zf_weak; [apply (A 4); [lia|apply Q; auto; lra]|lia|lia]|]. eapply zf_weak; [exact Z0|lia|lia]. }
    clearbody h. simpl in Hh. destruct (d_of_f_exact h Fh) as (Wh & Gh). destruct (zd_Z 6) as ((G6 & _) & W6); [lia|].
    destruct (zd_div (-1) 1 (d_of_f h) (d_of_Z 6) Gh G6) as (Zq & _); [rewrite W6; simpl; lra|split; lia|rewrite W6, Wh; simpl; apply ratio1; lra|].
    destruct (zf_nar _ _ _ Zq) as ((Fq & Hq) & _); [split; lia|]. set (q := f_of_d (ddiv (d_of_f h) (d_of_Z 6))) in *. clearbody q. simpl in Hq. destruct (d_of_f_exact q Fq) as (Wq & Gq).
    rewrite dlt_spec, Wq, W0 by auto. destruct (Rlt_bool_spec (b2r q) 0); [|split; [exact Fq|simpl; lra]].
    destruct (zd_add 0 1 (d_of_f q) (d_of_Z 1) Gq G1) as (Za & _); [split; lia|rewrite W1, Wq; simpl; lra|]. apply (zf_nar _ _ _ Za). split; lia.
  - destruct (dle (d_of_f l) (dlit 1 2)).
    + assert (b2r dl <= b2r sm)%R by (rewrite Vd, Vs; apply rnd64_le; lra). destruct (zd_div 0 1 dl sm Fd Fs) as (Zq & _); [lra|split; lia|apply ratio01; lra|]. apply (zf_nar _ _ _ Zq). split; lia.
    + destruct (zd_sub 1 2 (d_of_Z 2) (d_of_f mx) G2 Gx) as ((Fa & Ha) & _); [split; lia|rewrite W2; simpl; lra|]. simpl in Ha.
      destruct (zd_sub 0 2 _ (d_of_f mn) Fa Gn) as ((Fe & He) & Ve); [split; lia|simpl; lra|]. set (e := dsub (dsub (d_of_Z 2) (d_of_f mx)) (d_of_f mn)) in *.
      assert (b2r dl <= b2r e)%R by (rewrite Vd, Ve, Wn; apply rnd64_le; lra). clearbody e. destruct (zd_div 0 1 dl e Fd Fe) as (Zq & _); [lra|split; lia|apply ratio01; lra|]. apply (zf_nar _ _ _ Zq). split; lia.
Qed.

(** *** HSL to RGB *)
Lemma between_le1 : forall x : f64, fin x -> (0 <= b2r x <= 1 + u24)%R -> zf 0 (f_of_d x) 1.
Proof.
  intros x F H. destruct (zf_nar 0 2 x) as ((Fx & Hx) & Vx); [split; [exact F|unfold u24 in H; simpl; lra]|split; lia|]. split; [exact Fx|]. split; [apply Hx|]. rewrite Vx. apply one_up. lra.
Qed.
(** the interpolation: the ends are in order, or the second is well above 0 *)
Lemma interpolate : forall n1 n2 hue : f64, fin n1 -> fin n2 -> zd 0 hue 1 -> (0 <= b2r n1 <= 1 + u24)%R -> (0 <= b2r n2 <= 1)%R -> (b2r n1 <= b2r n2 \/ / 4 <= b2r n2)%R ->
  zf 0 (f_of_d (dadd n1 (dmul (dsub n2 n1) hue))) 1.
Proof.
  intros n1 n2 hue F1 F2 (Fh & Hh) H1 H2 Ho. simpl in Hh. assert (u24 <= / 1000)%R as U by (unfold u24; lra). assert (0 < u24)%R as U0 by (unfold u24; lra).
  destruct (zd_sub (-2) 1 n2 n1 F2 F1) as ((Fs & Hs) & Vs); [split; lia|simpl; lra|]. set (t := dsub n2 n1) in *. clearbody t. change (IZR (-2)) with (-2)%R in Hs. simpl in Hs.
  pose proof (rnd64_err (b2r n2 - b2r n1) 1) as E1. rewrite <- Vs in E1. specialize (E1 ltac:(simpl; apply Rabs_le; lra) ltac:(lia)). change (bpow radix2 (1 - 54)) with (/ 9007199254740992)%R in E1. apply Rabs_le_inv in E1.
  assert (-2 <= b2r t * b2r hue <= 1)%R as Bp. { split; [apply Rle_trans with (-2 * b2r hue)%R; [lra|apply Rmult_le_compat_r; lra]|apply Rle_trans with (1 * b2r hue)%R; [apply Rmult_le_compat_r; lra|lra]]. }
  destruct (zd_mul (-2) 1 t hue Fs Fh) as ((Fp & Hp) & Vp); [split; lia|simpl; lra|]. set (p := dmul t hue) in *. clearbody p. change (IZR (-2)) with (-2)%R in Hp. simpl in Hp.
  pose proof (rnd64_err (b2r t * b2r hue) 1) as E2. rewrite <- Vp in E2. specialize (E2 ltac:(simpl; apply Rabs_le; lra) ltac:(lia)). change (bpow radix2 (1 - 54)) with (/ 9007199254740992)%R in E2. apply Rabs_le_inv in E2.
  (* the sum is between -1 and 3 *)
  destruct (zd_add (-2) 3 n1 p F1 Fp) as ((Fa & Ha) & Va); [split; lia|change (IZR (-2)) with (-2)%R; simpl; lra|]. set (a := dadd n1 p) in *. clearbody a.
  apply between_le1; [exact Fa|]. rewrite Va.
  assert (rep64 (1 + u24)) as R1. { replace (1 + u24)%R with (IZR 16777217 * bpow radix2 (-24))%R by (change (bpow radix2 (-24)) with (/ 16777216)%R; unfold u24; lra). apply rep64_scaled; lia. }
  destruct (Rle_lt_dec 0 (b2r t)) as [Up|Down].
  - (* increasing *)
    assert (0 <= b2r t * b2r hue <= b2r t)%R as Bq. { split; [apply Rmult_le_pos; lra|]. rewrite <- (Rmult_1_r (b2r t)) at 2. apply Rmult_le_compat_l; lra. }
    assert (0 <= b2r p)%R by (rewrite Vp; apply rnd64_ge_r; [apply (rep64_IZR 0); lia|lra]).
    split; [apply rnd64_ge_r; [apply (rep64_IZR 0); lia|lra]|]. apply rnd64_le_r; [exact R1|]. unfold u24 in *. lra.
  - (* decreasing *)
    assert (b2r n2 < b2r n1)%R as Lt. { destruct (Rle_lt_dec (b2r n1) (b2r n2)) as [C|]; [|assumption]. exfalso. assert (0 <= b2r t)%R by (rewrite Vs; apply rnd64_ge_r; [apply (rep64_IZR 0); lia|lra]). lra. }
    assert (b2r t <= b2r t * b2r hue <= 0)%R as Bq. { split; [|rewrite <- (Rmult_0_l (b2r hue)); apply Rmult_le_compat_r; lra]. pose proof (Rmult_le_compat_neg_l (b2r t) (b2r hue) 1 ltac:(lra) ltac:(lra)). lra. }
    assert (b2r p <= 0)%R by (rewrite Vp; apply rnd64_le_r; [apply (rep64_IZR 0); lia|lra]).
    split; [apply rnd64_ge_r; [apply (rep64_IZR 0); lia|]|apply rnd64_le_r; [exact R1|lra]]. destruct Ho as [Ho|Ho]; [exfalso; lra|]. lra.
Qed.
Lemma hsl_value_unit : forall n1 n2 hue : f64, fin n1 -> fin n2 -> zd (-2) hue 8 -> (0 <= b2r n1 <= 1 + u24)%R -> (0 <= b2r n2 <= 1)%R -> (b2r n1 <= b2r n2 \/ / 4 <= b2r n2)%R ->
  zf 0 (f_of_d (hsl_value mix64 n1 n2 hue)) 1.
Proof.
  intros n1 n2 hue F1 F2 (Fh & Hh) H1 H2 Ho. unfold hsl_value. cbv zeta. change (IZR (-2)) with (-2)%R in Hh. simpl in Hh.
  change (@nlt (dbl mix64)) with dlt. change (@nofZ (dbl mix64)) with d_of_Z. change (@nadd (dbl mix64)) with dadd. change (@nsub (dbl mix64)) with dsub. change (@nmul (dbl mix64)) with dmul.
  destruct (zd_Z 6) as ((G6 & _) & W6); [lia|]. destruct (zd_Z 0) as ((G0 & _) & W0); [lia|]. destruct (zd_Z 1) as ((G1 & _) & W1); [lia|]. destruct (zd_Z 3) as ((G3 & _) & W3); [lia|]. destruct (zd_Z 4) as ((G4 & _) & W4); [lia|].
  set (h := if dlt (d_of_Z 6) hue then _ else _). assert (zd 0 h 6) as (Fq & Hq).
  { unfold h. rewrite !dlt_spec, W6, W0 by auto. destruct (Rlt_bool_spec 6 (b2r hue)); [eapply zd_weak; [apply (zd_sub 0 2); auto; [split; lia|rewrite W6; simpl; lra]|lia|lia]|].
    destruct (Rlt_bool_spec (b2r hue) 0); [apply zd_add; auto; [split; lia|rewrite W6; simpl; lra]|]. split; [exact Fh|simpl; lra]. }
  clearbody h. simpl in Hq. rewrite !dlt_spec, W1, W3, W4 by auto.
  destruct (Rlt_bool_spec (b2r h) 1); [apply interpolate; auto; split; [exact Fq|simpl; lra]|].
  destruct (Rlt_bool_spec (b2r h) 3); [apply between_le1; auto; unfold u24; lra|].
  destruct (Rlt_bool_spec (b2r h) 4); [|apply between_le1; auto].
  apply interpolate; auto. apply zd_sub; auto; [split; lia|rewrite W4; simpl; lra].
Qed.

(** a float in [1/2, 1] is a multiple of 2^-24 *)
Lemma upper_half : forall x : f32, (/ 2 <= b2r x <= 1)%R -> exists j, b2r x = (IZR j * u24)%R /\ 8388608 <= j <= 16777216.
Proof.
  intros x H. destruct (grid32 (b2r x) (-1) (rep32_b2r x)) as (j & E); [lia|simpl; lra|]. change (bpow radix2 (-1 - 23)) with u24 in E. exists j. split; [exact E|]. rewrite E in H. unfold u24 in H.
  split; apply le_IZR; lra.
Qed.
Lemma grid_rep : forall j, Z.abs j <= 16777216 -> rep32 (IZR j * u24).
Proof. intros j H. change u24 with (bpow radix2 (-24)). apply rep32_scaled; lia. Qed.

(** l + s - l * s in floats, for l above one half *)
Lemma upper_end : forall l sa : f32, zf 0 l 1 -> zf 0 sa 1 -> (/ 2 < b2r l)%R ->
  exists m : f32, fsub (fadd l sa) (fmul l sa) = m /\ fin m /\ (b2r l - 2 * u24 <= b2r m <= 1)%R /\ (2 * b2r l - b2r m <= 1 + u24)%R.
Proof.
  intros l sa (Fl & Hl) (Fs & Hs) Half. simpl in Hl, Hs. exists (fsub (fadd l sa) (fmul l sa)). split; [reflexivity|].
  destruct (zf_add 0 2 l sa Fl Fs) as ((Fa & Ha) & Va); [split; lia|simpl; lra|]. simpl in Ha.
  assert (0 <= b2r l * b2r sa <= b2r sa)%R as Bp. { split; [apply Rmult_le_pos; lra|]. rewrite <- (Rmult_1_l (b2r sa)) at 2. apply Rmult_le_compat_r; lra. }
  assert (b2r l * b2r sa <= b2r l)%R as Bp'. { rewrite <- (Rmult_1_r (b2r l)) at 2. apply Rmult_le_compat_l; lra. }
  destruct (zf_mul 0 1 l sa Fl Fs) as ((Fp & Hp) & Vp); [split; lia|simpl; lra|]. simpl in Hp.
  set (x := fadd l sa) in *. set (y := fmul l sa) in *. clearbody x y.
  pose proof (rnd32_err (b2r l + b2r sa) 1) as E1. rewrite <- Va in E1. specialize (E1 ltac:(simpl; apply Rabs_le; lra) ltac:(lia)). change (bpow radix2 (1 - 25)) with u24 in E1. apply Rabs_le_inv in E1.
  pose proof (rnd32_err (b2r l * b2r sa) 0) as E2. rewrite <- Vp in E2. specialize (E2 ltac:(simpl; apply Rabs_le; lra) ltac:(lia)). change (bpow radix2 (0 - 25)) with (/ 33554432)%R in E2. apply Rabs_le_inv in E2.
  assert (b2r y <= b2r sa /\ b2r y <= b2r l)%R as (Ys & Yl) by (rewrite Vp; split; (apply rnd32_le_r; [apply rep32_b2r|lra])).
  destruct (upper_half l ltac:(lra)) as (j & El & Hj).
  assert (u24 = / 16777216)%R as U by reflexivity.
  (* the product is rounded down by no more than (1-l)(1-s) *)
  assert (b2r l + b2r sa - 1 <= b2r y)%R as Low.
  { destruct (Rle_lt_dec 1 (b2r l)) as [L1|L1].
    { assert (b2r l = 1)%R as -> by lra. rewrite Vp. replace (b2r l) with 1%R by lra. rewrite Rmult_1_l, rnd32_id by apply rep32_b2r. lra. }
    destruct (Rle_lt_dec (/ 2) (b2r sa)) as [S2|S2].
    - destruct (upper_half sa ltac:(lra)) as (k & Ek & Hk). assert (b2r l + b2r sa - 1 = IZR (j + k - 16777216) * u24)%R as Eg by (rewrite El, Ek, minus_IZR, plus_IZR, U; lra).
      rewrite Eg, Vp. apply rnd32_ge_r; [apply grid_rep; lia|]. rewrite <- Eg. assert (0 <= (1 - b2r l) * (1 - b2r sa))%R by (apply Rmult_le_pos; lra). lra.
    - assert (j <= 16777215) as Hj' by (apply Zlt_succ_le, lt_IZR; unfold Z.succ; rewrite plus_IZR; rewrite El, U in L1; lra). apply IZR_le in Hj'.
      assert (u24 <= 1 - b2r l)%R as A by (rewrite El, U; lra).
      assert (u24 * (/ 2) <= (1 - b2r l) * (1 - b2r sa))%R as B by (apply Rmult_le_compat; lra). lra. }
  assert (b2r l - 3 / 2 * u24 <= b2r x - b2r y <= 1 + u24)%R as B by lra.
  assert (0 <= b2r x - b2r y <= 2)%R as B2 by lra.
  destruct (zf_sub 0 2 x y Fa Fp) as ((Fm & Hm) & Vm); [split; lia|simpl; lra|]. split; [exact Fm|].
  assert (b2r (fsub x y) <= 1)%R as Le1 by (rewrite Vm; apply one_up; lra).
  assert (b2r l - 2 * u24 <= b2r (fsub x y))%R as Ge. { replace (b2r l - 2 * u24)%R with (IZR (j - 2) * u24)%R by (rewrite minus_IZR, El; lra). rewrite Vm. apply rnd32_ge_r; [apply grid_rep; lia|]. rewrite minus_IZR. rewrite El in B. lra. }
  split; [split; assumption|].
  destruct (Rle_lt_dec 1 (b2r l)) as [L1|L1].
  - assert (b2r l = 1)%R as E. { lra. } rewrite E in *. assert (b2r y = b2r sa) as Ey by (rewrite Vp; rewrite Rmult_1_l; apply rnd32_id, rep32_b2r).
    assert (1 - u24 <= b2r (fsub x y))%R as G. { rewrite Vm. replace (1 - u24)%R with (IZR 16777215 * u24)%R by (rewrite U; lra). apply rnd32_ge_r; [apply grid_rep; lia|rewrite U in *; lra]. } lra.
  - assert (j <= 16777215) as Hj' by (apply Zlt_succ_le, lt_IZR; unfold Z.succ; rewrite plus_IZR; rewrite El, U in L1; lra). apply IZR_le in Hj'. assert (u24 <= 1 - b2r l)%R as A by (rewrite El, U; lra). lra.
Qed.

Lemma half_d : fin (dlit 1 2) /\ b2r (dlit 1 2) = (/ 2)%R.
Proof. split; [vm_compute; reflexivity|]. vm_compute. lra. Qed.

Lemma hsl_unit : forall h sa l : f32, fin h -> (Rabs (b2r h) <= 1000000)%R -> fin sa -> fin l -> unit3 (hsl_to_rgb mix64 (h, sa, l)).
Proof.
  intros h sa l Fh Ah Fsa Fl. unfold hsl_to_rgb. pose proof (clamp_zf sa Fsa) as Zs. pose proof (clamp_zf l Fl) as Zl.
  set (s' := clamp01 mix64 sa) in *. set (l' := clamp01 mix64 l) in *. clearbody s' l'. clear sa l Fsa Fl. change (car (sng mix64)) with f32 in *. cbv zeta.
  change (@neqb (sng mix64)) with feq. change (@nle (dbl mix64)) with dle. change (@nar mix64) with f_of_d. change (@wid mix64) with d_of_f. change (@nofZ (dbl mix64)) with d_of_Z. change (@nofZ (sng mix64)) with f_of_Z. change (@dec mix64) with dlit.
  change (@nsub (sng mix64)) with fsub. change (@nadd (sng mix64)) with fadd. change (@nmul (sng mix64)) with fmul. change (@nadd (dbl mix64)) with dadd. change (@nsub (dbl mix64)) with dsub. change (@nmul (dbl mix64)) with dmul. change (@flo mix64) with dfloor.
  destruct (feq s' (f_of_Z 0)); [split; [exact Zl|split; exact Zl]|].
  destruct (zd_Z 1) as ((G1 & _) & W1); [lia|]. destruct (zd_Z 2) as ((G2 & _) & W2); [lia|]. destruct (zd_Z 6) as ((G6 & _) & W6); [lia|].
  (* the hue *)
  destruct (d_of_f_exact h Fh) as (Wh & Gh). destruct (dfloor_val (d_of_f h) Gh) as (Gf & Vf & _); [rewrite Wh; exact Ah|]. rewrite Wh in Vf.
  pose proof (Zfloor_lb (b2r h)) as Lb. pose proof (Zfloor_ub (b2r h)) as Ub.
  destruct (zd_sub 0 1 (d_of_f h) _ Gh Gf) as (Zd & _); [split; lia|rewrite Wh, Vf; simpl; lra|]. destruct (zf_nar _ _ _ Zd) as (Zd' & _); [split; lia|]. destruct (zd_wid _ _ _ Zd') as ((Gq & Bq) & _). simpl in Bq.
  set (q := d_of_f (f_of_d (dsub (d_of_f h) (dfloor (d_of_f h))))) in *. clearbody q. clear Zd Zd' Gf Vf Lb Ub Gh Wh Fh Ah.
  destruct (zd_mul 0 6 q (d_of_Z 6) Gq G6) as ((G & B) & _); [split; lia|rewrite W6; simpl; lra|]. set (h6 := dmul q (d_of_Z 6)) in *. clearbody h6. simpl in B. clear q Gq Bq.
  destruct (zd_add (-2) 8 h6 (d_of_Z 2) G G2) as (Z1 & _); [split; lia|change (IZR (-2)) with (-2)%R; rewrite W2; simpl; lra|]. destruct (zd_sub (-2) 8 h6 (d_of_Z 2) G G2) as (Z2 & _); [split; lia|change (IZR (-2)) with (-2)%R; rewrite W2; simpl; lra|].
  assert (zd (-2) h6 8) as Z3 by (split; [exact G|change (IZR (-2)) with (-2)%R; simpl; lra]).
  (* the ends *)
  set (m2 := if dle (d_of_f l') (dlit 1 2) then _ else _). set (m1 := dsub (dmul (d_of_Z 2) (d_of_f l')) m2).
  enough (fin m1 /\ fin m2 /\ (0 <= b2r m1 <= 1 + u24)%R /\ (0 <= b2r m2 <= 1)%R /\ (b2r m1 <= b2r m2 \/ / 4 <= b2r m2)%R) as (Q1 & Q2 & Q3 & Q4 & Q5).
  { split; [apply hsl_value_unit; auto|]. split; apply hsl_value_unit; auto. }
  assert (0 < u24 <= / 1000)%R as U by (unfold u24; lra).
  destruct (zd_wid _ _ _ Zl) as ((Gl & Bl) & Wl). destruct (zd_wid _ _ _ Zs) as ((Gs & Bs) & Ws). simpl in Bl, Bs.
  (* 2 l is exact *)
  destruct (zd_mul 0 2 (d_of_Z 2) (d_of_f l') G2 Gl) as ((Gt & Bt) & Vt); [split; lia|rewrite W2; simpl; lra|].
  assert (b2r (dmul (d_of_Z 2) (d_of_f l')) = 2 * b2r l')%R as Et.
  { rewrite Vt, W2, Wl. apply rnd64_id. rewrite Rmult_comm, <- Wl. change 2%R with (bpow radix2 1). apply (mult_bpow_pos_exact_FLT radix2 (-1074) 53); [apply rep64_b2r|lia]. }
  set (t := dmul (d_of_Z 2) (d_of_f l')) in *. clearbody t. simpl in Bt. destruct half_d as (Fhalf & Vhalf).
  unfold m1, m2. clear m1 m2. rewrite dle_spec, Wl, Vhalf by auto. destruct (Rle_bool_spec (b2r l') (/ 2)) as [Lo|Hi].
  - destruct (zd_add 1 2 (d_of_Z 1) (d_of_f s') G1 Gs) as ((Fp & Bp) & _); [split; lia|rewrite W1; simpl; lra|]. set (p := dadd (d_of_Z 1) (d_of_f s')) in *. clearbody p. simpl in Bp.
    assert (b2r l' <= b2r l' * b2r p <= 2 * b2r l')%R as K. { rewrite Wl in Bl. split; [rewrite <- (Rmult_1_r (b2r l')) at 1; apply Rmult_le_compat_l; lra|rewrite (Rmult_comm 2); apply Rmult_le_compat_l; lra]. }
    destruct (zd_mul 0 1 (d_of_f l') p Gl Fp) as ((Fm & Bm) & Vm); [split; lia|rewrite Wl in *; simpl; lra|]. rewrite Wl in Vm. set (m := dmul (d_of_f l') p) in *. clearbody m. simpl in Bm.
    assert (b2r l' <= b2r m <= b2r t)%R as (M1 & M2). { rewrite Vm. split; [apply rnd64_ge_r; [rewrite <- Wl; apply rep64_b2r|lra]|apply rnd64_le_r; [apply rep64_b2r|lra]]. }
    destruct (zd_sub 0 2 t m Gt Fm) as ((Fr & Br) & Vr); [split; lia|simpl; lra|]. split; [exact Fr|]. split; [exact Fm|].
    assert (b2r (dsub t m) <= b2r m)%R by (rewrite Vr; apply rnd64_le_r; [apply rep64_b2r|lra]). simpl in Br. split; [lra|]. split; [lra|]. left. assumption.
  - destruct (upper_end l' s' Zl Zs Hi) as (m & -> & Fm & Hm & Hm'). destruct (d_of_f_exact m Fm) as (Wm & Gm).
    destruct (zd_sub 0 2 t (d_of_f m) Gt Gm) as ((Fr & Br) & Vr); [split; lia|rewrite Et, Wm; simpl; lra|]. split; [exact Fr|]. split; [exact Gm|]. rewrite Wm. simpl in Br. split; [|split; [lra|right; lra]].
    split; [lra|]. rewrite Vr, Et, Wm. apply rnd64_le_r; [|exact Hm'].
    replace (1 + u24)%R with (IZR 16777217 * bpow radix2 (-24))%R by (change (bpow radix2 (-24)) with (/ 16777216)%R; unfold u24; lra). apply rep64_scaled; lia.
Qed.

(** *** The colour of a dab *)
Section Dynamics.
  Context (L : mathlib mix64) {E : env mix64} (EM : easel_maths L).
  Lemma gamma_ok : forall (x e : f32), zf 0 x 1 -> fin e -> (0 < b2r e)%R -> zf 0 (powf_ L x e) 1.
  Proof. intros x e (F & H) Fe He. destruct (em_pow L EM x e F Fe H He) as (G & K). split; [exact G|exact K]. Qed.
  Lemma fabs_zf : forall k (x : f32), zf (- k) x k -> zf 0 (fabsf_ L x : f32) k.
  Proof.
    intros k x (F & H). rewrite (em_abs L EM). split; [destruct x; try discriminate F; reflexivity|]. assert (b2r (fabs x) = Rabs (b2r x)) as -> by apply B2R_Babs. rewrite opp_IZR in H.
    split; [apply Rabs_pos|apply Rabs_le; exact H].
  Qed.
  Lemma inv_gamma : fin (f_of_d (ddiv (d_of_Z 1) (dlit 22 10))) /\ (0 < b2r (f_of_d (ddiv (d_of_Z 1) (dlit 22 10))))%R.
  Proof. split; [vm_compute; reflexivity|]. assert (flt f0 (f_of_d (ddiv (d_of_Z 1) (dlit 22 10))) = true) as C by (vm_compute; reflexivity). destruct f0_val as (V & F). rewrite flt_spec, V in C; [|exact F|vm_compute; reflexivity]. destruct (Rlt_bool_spec 0 (b2r (f_of_d (ddiv (d_of_Z 1) (dlit 22 10))))); [assumption|discriminate C]. Qed.
  Lemma gamma_fin : fin (f_of_d (dlit 22 10)) /\ (0 < b2r (f_of_d (dlit 22 10)))%R.
  Proof. split; [vm_compute; reflexivity|]. assert (flt f0 (f_of_d (dlit 22 10)) = true) as C by (vm_compute; reflexivity). destruct f0_val as (V & F). rewrite flt_spec, V in C; [|exact F|vm_compute; reflexivity]. destruct (Rlt_bool_spec 0 (b2r (f_of_d (dlit 22 10)))); [assumption|discriminate C]. Qed.

  (** the sum and the products of the dynamics *)
  Lemma shift_ok : forall x v : f32, zf 0 x 1 -> zf (-1000) v 1000 -> zf (-1001) (fadd x v) 1001.
  Proof. intros x v (F & H) (G & K). apply zf_add; auto; [split; lia|]. change (IZR (-1000)) with (-1000)%R in K. change (IZR (-1001)) with (-1001)%R. simpl in *. lra. Qed.
  Lemma bounds_mul : forall k m (x y : f32), 0 <= k -> 0 <= m -> k * m <= 16777216 -> zf (- k) x k -> zf (- m) y m -> zf (- (k * m)) (fmul x y) (k * m).
  Proof.
    intros k m x y Hk Hm Hb (F & H) (G & K). apply zf_mul; auto; [split; lia|]. rewrite opp_IZR, mult_IZR. rewrite opp_IZR in H, K. apply Rabs_le in H, K. apply Rabs_le_inv. rewrite Rabs_mult. apply Rmult_le_compat; auto using Rabs_pos.
  Qed.

  Lemma dab_color_ok : forall (b : brush E) (r g bl : f32) lin, zf 0 r 1 -> zf 0 g 1 -> zf 0 bl 1 ->
    (forall i, In i [SET_CHANGE_COLOR_H; SET_CHANGE_COLOR_HSV_S; SET_CHANGE_COLOR_V; SET_CHANGE_COLOR_L; SET_CHANGE_COLOR_HSL_S] -> zf (-1000) (val b i) 1000) ->
    exists r' g' b' : f32, dab_color L b (r, g, bl) lin = Ok (r', g', b') /\ zf 0 r' 1 /\ zf 0 g' 1 /\ zf 0 b' 1.
  Proof.
    intros b r g bl lin Zr Zg Zb V. unfold dab_color. cbv zeta.
    pose proof (V SET_CHANGE_COLOR_H ltac:(cbn; auto 9)) as V1. pose proof (V SET_CHANGE_COLOR_HSV_S ltac:(cbn; auto 9)) as V2. pose proof (V SET_CHANGE_COLOR_V ltac:(cbn; auto 9)) as V3. pose proof (V SET_CHANGE_COLOR_L ltac:(cbn; auto 9)) as V4. pose proof (V SET_CHANGE_COLOR_HSL_S ltac:(cbn; auto 9)) as V5. clear V.
    set (v1 := val b SET_CHANGE_COLOR_H) in *. set (v2 := val b SET_CHANGE_COLOR_HSV_S) in *. set (v3 := val b SET_CHANGE_COLOR_V) in *. set (v4 := val b SET_CHANGE_COLOR_L) in *. set (v5 := val b SET_CHANGE_COLOR_HSL_S) in *. clearbody v1 v2 v3 v4 v5.
    set (hsv := truthy v1 || truthy v2 || truthy v3). set (hsl := truthy v4 || truthy v5). clearbody hsv hsl.
    change (@nar mix64) with f_of_d. change (@nofZ (dbl mix64)) with d_of_Z. change (@nofZ (sng mix64)) with f_of_Z. change (@dec mix64) with dlit. change (@ndiv (dbl mix64)) with ddiv.
    change (@nadd (sng mix64)) with fadd. change (@nmul (sng mix64)) with fmul. change (@nsub (sng mix64)) with fsub. change (car (sng mix64)) with f32 in *.
    (* into the display space *)
    match goal with |- context [rgb_to_hsv mix64 ?c] => set (c1 := c) end.
    assert (unit3 c1) as U1. { unfold c1. destruct (lin && (hsv || hsl)); [|cbn; auto]. destruct inv_gamma as (F & H). cbn. split; [|split]; apply gamma_ok; auto. }
    clearbody c1. destruct c1 as ((r1, g1), b1). destruct U1 as (Zr1 & Zg1 & Zb1).
    (* HSV *)
    match goal with |- context [obind ?o _] => assert (exists c2, o = Ok c2 /\ unit3 c2) as (c2 & E2 & U2) end.
    { destruct hsv; [|eexists; split; [reflexivity|cbn; auto]]. pose proof (to_hsv_unit r1 g1 b1 (proj1 Zr1) (proj1 Zg1) (proj1 Zb1)) as U. destruct (rgb_to_hsv mix64 (r1, g1, b1)) as ((h, sa), v) eqn:Eh. destruct U as (Zh & Zs & Zv).
      destruct (shift_ok h v1 Zh V1) as (F1 & H1). destruct (shift_ok v v3 Zv V3) as (F3 & _).
      assert (fin (fadd sa (fmul (fmul sa v) v2))) as F2.
      { pose proof (bounds_mul 1 1 sa v ltac:(lia) ltac:(lia) ltac:(lia) (zf_weak 0 1 (-1) 1 _ Zs ltac:(lia) ltac:(lia)) (zf_weak 0 1 (-1) 1 _ Zv ltac:(lia) ltac:(lia))) as Z1.
        pose proof (bounds_mul 1 1000 _ v2 ltac:(lia) ltac:(lia) ltac:(lia) Z1 V2) as Z2. exact (proj1 (shift_ok sa _ Zs Z2)). }
      destruct (hsv_unit (fadd h v1) (fadd sa (fmul (fmul sa v) v2)) (fadd v v3) F1) as (r2 & g2 & b2 & Ec & A & B & C); auto.
      { change (IZR (-1001)) with (-1001)%R in H1. simpl in H1. apply Rabs_le. lra. }
      exists (r2, g2, b2). split; [exact Ec|cbn; auto]. }
    rewrite E2. cbn [obind]. clear E2. clear r1 g1 b1 Zr1 Zg1 Zb1.
    (* HSL *)
    set (c3 := if hsl then _ else _). assert (unit3 c3) as U3.
    { unfold c3. destruct hsl; [|exact U2]. destruct c2 as ((r2, g2), b2). destruct U2 as (Zr2 & Zg2 & Zb2).
      match goal with |- context [rgb_to_hsl mix64 ?x] => set (t := rgb_to_hsl mix64 x) end. assert (unit3 t) as U by exact (to_hsl_unit r2 g2 b2 (proj1 Zr2) (proj1 Zg2) (proj1 Zb2)). clearbody t. destruct t as ((h, sa), v). destruct U as (Zh & Zs & Zv). destruct Zh as (Fh & Hh). simpl in Hh.
      pose proof (shift_ok v v4 Zv V4) as Zl. set (l := fadd v v4) in *. clearbody l.
      assert (zf (-1002) (fsub (f_of_Z 1) l) 1002) as Zd. { destruct Zl as (Fl & Hl). change (IZR (-1001)) with (-1001)%R in Hl. simpl in Hl. destruct (zf_Z 1) as ((F1 & _) & W1); [lia|]. apply zf_sub; auto; [split; lia|rewrite W1; change (IZR (-1002)) with (-1002)%R; simpl; lra]. }
      assert (zf (-1) sa 1) as Zs1 by (eapply zf_weak; [exact Zs|lia|lia]).
      assert (fin (fadd sa (fmul (fmul (fmul sa (cmin mix64 (fabsf_ L (fsub (f_of_Z 1) l)) (fabsf_ L l))) (f_of_Z 2)) v5))) as Fs.
      { assert (zf (-1002) (cmin mix64 (fabsf_ L (fsub (f_of_Z 1) l)) (fabsf_ L l)) 1002) as Zm. { unfold cmin. destruct (nlt _ _); [eapply zf_weak; [apply (fabs_zf 1002); exact Zd|lia|lia]|eapply zf_weak; [apply (fabs_zf 1001); exact Zl|lia|lia]]. }
        pose proof (bounds_mul 1 1002 sa _ ltac:(lia) ltac:(lia) ltac:(lia) Zs1 Zm) as M1.
        pose proof (bounds_mul 1002 2 _ (f_of_Z 2) ltac:(lia) ltac:(lia) ltac:(lia) M1 (zf_weak 2 2 (-2) 2 _ (proj1 (zf_Z 2 ltac:(lia))) ltac:(lia) ltac:(lia))) as M2.
        pose proof (bounds_mul 2004 1000 _ v5 ltac:(lia) ltac:(lia) ltac:(lia) M2 V5) as (Fm & Hm). destruct Zs as (Fsa & Hsa). simpl in Hsa.
        apply (zf_add (-3000000) 3000000 sa _ Fsa Fm); [split; lia|]. change (- (2004 * 1000)) with (-2004000) in Hm. change (2004 * 1000) with 2004000 in Hm. change (IZR (-3000000)) with (-3000000)%R. change (IZR (-2004000)) with (-2004000)%R in Hm. lra. }
      apply (hsl_unit h _ l Fh); [apply Rabs_le; lra|exact Fs|exact (proj1 Zl)]. }
    clearbody c3. destruct c3 as ((r3, g3), b3). destruct U3 as (Zr3 & Zg3 & Zb3).
    destruct (lin && (hsv || hsl)); [|exists r3, g3, b3; auto].
    destruct gamma_fin as (Fg & Hg). eexists _, _, _. split; [reflexivity|]. split; [|split]; apply gamma_ok; auto.
  Qed.
End Dynamics.
