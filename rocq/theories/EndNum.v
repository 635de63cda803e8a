(** Numbers for the end of an event: rounding errors relative to the size, and one
    step towards the target. *)
From Verif Require Import Base F32 F32Proofs EaselNum.
From Coq Require Import Reals Lra.
From Flocq Require Import Core.Core IEEE754.BinarySingleNaN.
From Flocq Require Import Relative.
Local Open Scope Z_scope.

Definition unit_ : R := (/ 16777216)%R.
Definition tiny : R := (/ 10 ^ 40)%R.
Lemma tiny_small : (0 < tiny <= / 1000000000000000000000000000000)%R. Proof. unfold tiny. lra. Qed.
Lemma tiny_149 : (/ 2 * bpow radix2 (-149) <= tiny)%R.
Proof. unfold tiny. change (-149) with (- (149)). rewrite bpow_opp. change (bpow radix2 149) with (IZR (2 ^ 149)). assert (IZR (10 ^ 40) <= IZR (2 ^ 149))%R as H by (apply IZR_le; vm_compute; discriminate).
  replace (10 ^ 40)%R with (IZR (10 ^ 40)) by (symmetry; apply (pow_IZR 10 40)). assert (0 < IZR (10 ^ 40))%R by (apply IZR_lt; reflexivity).
  assert (/ IZR (2 ^ 149) <= / IZR (10 ^ 40))%R by (apply Rinv_le; lra). assert (0 < / IZR (2 ^ 149))%R by (apply Rinv_0_lt_compat; lra). lra. Qed.

Lemma near32 : forall x, (Rabs (rnd32 x - x) <= unit_ * Rabs x + tiny)%R.
Proof.
  intros x. destruct (error_N_FLT radix2 (-149) 24 eq_refl (fun x => negb (Z.even x)) x) as (eps & eta & H1 & H2 & _ & H4).
  change (round radix2 (FLT_exp (-149) 24) ZnearestE x) with (rnd32 x) in H4. rewrite H4.
  replace (x * (1 + eps) + eta - x)%R with (eps * x + eta)%R by ring. eapply Rle_trans; [apply Rabs_triang|]. rewrite Rabs_mult.
  pose proof tiny_149. assert (Rabs eps <= unit_)%R. { eapply Rle_trans; [exact H1|]. unfold unit_. change (bpow radix2 (- (24) + 1)) with (/ 8388608)%R. lra. }
  pose proof (Rabs_pos x). nra.
Qed.
Lemma near64 : forall x, (Rabs (rnd64 x - x) <= unit_ * unit_ * Rabs x + tiny)%R.
Proof.
  intros x. destruct (error_N_FLT radix2 (-1074) 53 eq_refl (fun x => negb (Z.even x)) x) as (eps & eta & H1 & H2 & _ & H4).
  change (round radix2 (FLT_exp (-1074) 53) ZnearestE x) with (rnd64 x) in H4. rewrite H4.
  replace (x * (1 + eps) + eta - x)%R with (eps * x + eta)%R by ring. eapply Rle_trans; [apply Rabs_triang|]. rewrite Rabs_mult.
  pose proof tiny_149 as T. assert (Rabs eta <= tiny)%R. { eapply Rle_trans; [exact H2|]. eapply Rle_trans; [|exact T]. apply Rmult_le_compat_l; [lra|]. apply bpow_le. lia. }
  assert (Rabs eps <= unit_ * unit_)%R. { eapply Rle_trans; [exact H1|]. unfold unit_. change (bpow radix2 (- (53) + 1)) with (/ 4503599627370496)%R. lra. }
  pose proof (Rabs_pos x). nra.
Qed.

Lemma rnd32_up : forall x U, (x <= U)%R -> (0 <= U)%R -> (rnd32 x <= (1 + unit_) * U + tiny)%R.
Proof.
  intros x U H1 H2. assert (rnd32 x <= rnd32 U)%R by (apply round_le; [apply (fexp_correct 24 128 eq_refl)|apply valid_rnd_N|exact H1]).
  pose proof (near32 U) as N. rewrite (Rabs_pos_eq U) in N by exact H2. apply Rabs_le_inv in N. lra.
Qed.
Lemma rnd32_size : forall x B, (Rabs x <= B)%R -> (Rabs (rnd32 x) <= 2 * B + 1)%R.
Proof.
  intros x B H. pose proof (near32 x) as N. pose proof tiny_small. replace (rnd32 x) with ((rnd32 x - x) + x)%R by ring.
  eapply Rle_trans; [apply Rabs_triang|]. unfold unit_ in N. pose proof (Rabs_pos x). lra.
Qed.

(** operations on numbers that are not astronomical *)
Definition large : R := (10 ^ 36)%R.
Lemma large_127 : (2 * large + 1 <= bpow radix2 127)%R.
Proof. unfold large. rewrite bpow_Z by lia. replace (10 ^ 36)%R with (IZR (10 ^ 36)) by (symmetry; apply (pow_IZR 10 36)). rewrite <- mult_IZR, <- plus_IZR. apply IZR_le. vm_compute. discriminate. Qed.
Lemma mul_large : forall x y : f32, fin x -> fin y -> (Rabs (b2r x * b2r y) <= large)%R -> fin (fmul x y) /\ b2r (fmul x y) = rnd32 (b2r x * b2r y).
Proof. intros x y Fx Fy H. pose proof large_127. assert (0 < large)%R by (unfold large; lra). destruct (fmul_spec x y Fx Fy) as (V & F); [lra|]. split; assumption. Qed.
Lemma add_large : forall x y : f32, fin x -> fin y -> (Rabs (b2r x + b2r y) <= large)%R -> fin (fadd x y) /\ b2r (fadd x y) = rnd32 (b2r x + b2r y).
Proof. intros x y Fx Fy H. pose proof large_127. assert (0 < large)%R by (unfold large; lra). destruct (fadd_spec x y Fx Fy) as (V & F); [lra|]. split; assumption. Qed.
Lemma sub_large : forall x y : f32, fin x -> fin y -> (Rabs (b2r x - b2r y) <= large)%R -> fin (fsub x y) /\ b2r (fsub x y) = rnd32 (b2r x - b2r y).
Proof. intros x y Fx Fy H. pose proof large_127. assert (0 < large)%R by (unfold large; lra). destruct (fsub_spec x y Fx Fy) as (V & F); [lra|]. split; assumption. Qed.
Lemma div_large : forall x y : f32, fin x -> b2r y <> 0%R -> (Rabs (b2r x / b2r y) <= large)%R -> fin (fdiv x y) /\ b2r (fdiv x y) = rnd32 (b2r x / b2r y).
Proof. intros x y Fx Fy H. pose proof large_127. assert (0 < large)%R by (unfold large; lra). destruct (fdiv_spec x y Fx Fy) as (V & F); [lra|]. split; assumption. Qed.

(** *** One step *)
(** from [v] towards [t] by the fraction [f]: what is left of the way, and the
    unavoidable error of a number of size [r] *)
Lemma step_rest : forall (v t f : f32) r, fin v -> fin t -> fin f -> (Rabs (b2r v) <= r)%R -> (Rabs (b2r t) <= r)%R -> (1 <= r <= 1000000)%R -> (0 <= b2r f <= 1)%R ->
  let d := Rabs (b2r t - b2r v) in
  fin (fadd v (fmul f (fsub t v))) /\
  (Rabs (b2r t - b2r (fadd v (fmul f (fsub t v)))) <= (1 - b2r f * (1 - 4 * unit_)) * d + unit_ * (r + 2))%R.
Proof.
  intros v t f r Fv Ft Ff Hv Ht Hr Hf d.
  assert (d <= 2 * r)%R as Hd by (unfold d; pose proof (Rabs_triang (b2r t) (- b2r v)) as K; rewrite Rabs_Ropp in K; unfold Rminus; lra).
  pose proof tiny_small as Ti. assert (large > 10000000)%R as La by (unfold large; lra). assert (0 <= d)%R as Pd by apply Rabs_pos.
  destruct (sub_large t v Ft Fv) as (Fs & Vs); [fold d; lra|]. pose proof (near32 (b2r t - b2r v)) as N1. rewrite <- Vs in N1. fold d in N1.
  set (s := b2r (fsub t v)) in *. set (k := b2r f) in *.
  assert (Rabs s <= (1 + unit_) * d + tiny)%R as Hs. { replace s with ((s - (b2r t - b2r v)) + (b2r t - b2r v))%R by ring. eapply Rle_trans; [apply Rabs_triang|]. fold d. lra. }
  assert (Rabs (k * s) = k * Rabs s)%R as Eks by (rewrite Rabs_mult, (Rabs_pos_eq k) by lra; reflexivity).
  assert (Rabs s <= 3000000)%R as Hs' by (unfold unit_ in Hs; lra).
  assert (k * Rabs s <= 3000000)%R as Hks by (pose proof (Rabs_pos s); nra).
  destruct (mul_large f (fsub t v) Ff Fs) as (Fm & Vm); [fold s k; rewrite Eks; lra|]. fold s k in Vm. pose proof (near32 (k * s)) as N2. rewrite <- Vm, Eks in N2. set (m := b2r (fmul f (fsub t v))) in *.
  assert (Rabs (m - k * (b2r t - b2r v)) <= 3 * unit_ * (k * d) + 3 * tiny)%R as N12.
  { replace (m - k * (b2r t - b2r v))%R with ((m - k * s) + k * (s - (b2r t - b2r v)))%R by ring. eapply Rle_trans; [apply Rabs_triang|]. rewrite (Rabs_mult k), (Rabs_pos_eq k) by lra.
    assert (k * Rabs (s - (b2r t - b2r v)) <= unit_ * (k * d) + tiny)%R. { apply Rle_trans with (k * (unit_ * d + tiny))%R; [apply Rmult_le_compat_l; lra|]. nra. }
    assert (k * Rabs s <= (1 + unit_) * (k * d) + tiny)%R. { apply Rle_trans with (k * ((1 + unit_) * d + tiny))%R; [apply Rmult_le_compat_l; lra|]. nra. }
    assert (0 <= k * d)%R by nra. unfold unit_ in *. lra. }
  assert (0 <= k * d <= d)%R as Hkd by nra.
  assert (Rabs (b2r v + m) <= r + 1)%R as Hvm.
  { replace (b2r v + m)%R with (((1 - k) * b2r v + k * b2r t) + (m - k * (b2r t - b2r v)))%R by ring. eapply Rle_trans; [apply Rabs_triang|].
    assert (Rabs ((1 - k) * b2r v + k * b2r t) <= r)%R.
    { eapply Rle_trans; [apply Rabs_triang|]. rewrite !Rabs_mult, (Rabs_pos_eq k), (Rabs_pos_eq (1 - k)) by lra.
      assert ((1 - k) * Rabs (b2r v) <= (1 - k) * r)%R by (apply Rmult_le_compat_l; lra). assert (k * Rabs (b2r t) <= k * r)%R by (apply Rmult_le_compat_l; lra). lra. }
    unfold unit_ in *. lra. }
  destruct (add_large v (fmul f (fsub t v)) Fv Fm) as (Fa & Va); [fold m; lra|]. split; [exact Fa|]. fold m in Va. pose proof (near32 (b2r v + m)) as N3. rewrite <- Va in N3. set (a := b2r (fadd v (fmul f (fsub t v)))) in *.
  replace (b2r t - a)%R with ((1 - k) * (b2r t - b2r v) - (m - k * (b2r t - b2r v)) - (a - (b2r v + m)))%R by ring.
  eapply Rle_trans; [apply Rabs_triang|]. rewrite Rabs_Ropp. eapply Rle_trans; [apply Rplus_le_compat_r, Rabs_triang|]. rewrite Rabs_Ropp. rewrite (Rabs_mult (1 - k)), (Rabs_pos_eq (1 - k)) by lra. fold d.
  assert (unit_ * Rabs (b2r v + m) <= unit_ * (r + 1))%R by (unfold unit_; lra). unfold unit_ in *. lra.
Qed.
(** the same when the fraction may be up to about two *)
Lemma step_over : forall (v t f : f32) r, fin v -> fin t -> fin f -> (Rabs (b2r v) <= r)%R -> (Rabs (b2r t) <= r)%R -> (1 <= r <= 200000)%R -> (0 <= b2r f <= 1025 / 512)%R ->
  fin (fadd v (fmul f (fsub t v))) /\
  (Rabs (b2r t - b2r (fadd v (fmul f (fsub t v)))) <= 514 / 512 * Rabs (b2r t - b2r v) + / 4)%R.
Proof.
  intros v t f r Fv Ft Ff Hv Ht Hr Hf. set (d := Rabs (b2r t - b2r v)).
  assert (d <= 2 * r)%R as Hd by (unfold d; pose proof (Rabs_triang (b2r t) (- b2r v)) as K; rewrite Rabs_Ropp in K; unfold Rminus; lra).
  pose proof tiny_small as Ti. assert (large > 10000000)%R as La by (unfold large; lra). assert (0 <= d)%R as Pd by apply Rabs_pos.
  destruct (sub_large t v Ft Fv) as (Fs & Vs); [fold d; lra|]. pose proof (near32 (b2r t - b2r v)) as N1. rewrite <- Vs in N1. fold d in N1.
  set (s := b2r (fsub t v)) in *. set (k := b2r f) in *.
  assert (Rabs s <= (1 + unit_) * d + tiny)%R as Hs. { replace s with ((s - (b2r t - b2r v)) + (b2r t - b2r v))%R by ring. eapply Rle_trans; [apply Rabs_triang|]. fold d. lra. }
  assert (Rabs (k * s) = k * Rabs s)%R as Eks by (rewrite Rabs_mult, (Rabs_pos_eq k) by lra; reflexivity).
  assert (Rabs s <= 500000)%R as Hs' by (unfold unit_ in Hs; lra).
  assert (k * Rabs s <= 2000000)%R as Hks by (pose proof (Rabs_pos s); nra).
  destruct (mul_large f (fsub t v) Ff Fs) as (Fm & Vm); [fold s k; rewrite Eks; lra|]. fold s k in Vm. pose proof (near32 (k * s)) as N2. rewrite <- Vm, Eks in N2. set (m := b2r (fmul f (fsub t v))) in *.
  assert (Rabs (m - k * (b2r t - b2r v)) <= 3 * unit_ * (k * d) + 9 * tiny)%R as N12.
  { replace (m - k * (b2r t - b2r v))%R with ((m - k * s) + k * (s - (b2r t - b2r v)))%R by ring. eapply Rle_trans; [apply Rabs_triang|]. rewrite (Rabs_mult k), (Rabs_pos_eq k) by lra.
    assert (k * Rabs (s - (b2r t - b2r v)) <= unit_ * (k * d) + 3 * tiny)%R. { apply Rle_trans with (k * (unit_ * d + tiny))%R; [apply Rmult_le_compat_l; lra|]. nra. }
    assert (k * Rabs s <= (1 + unit_) * (k * d) + 3 * tiny)%R. { apply Rle_trans with (k * ((1 + unit_) * d + tiny))%R; [apply Rmult_le_compat_l; lra|]. nra. }
    assert (0 <= k * d)%R by nra. unfold unit_ in *. lra. }
  assert (0 <= k * d <= 1025 / 512 * d)%R as Hkd by nra.
  assert (Rabs (b2r v + m) <= 2000000)%R as Hvm.
  { replace (b2r v + m)%R with (b2r v + k * (b2r t - b2r v) + (m - k * (b2r t - b2r v)))%R by ring. eapply Rle_trans; [apply Rabs_triang|]. eapply Rle_trans; [apply Rplus_le_compat_r, Rabs_triang|].
    rewrite (Rabs_mult k), (Rabs_pos_eq k) by lra. fold d. unfold unit_ in *. lra. }
  destruct (add_large v (fmul f (fsub t v)) Fv Fm) as (Fa & Va); [fold m; lra|]. split; [exact Fa|]. fold m in Va. pose proof (near32 (b2r v + m)) as N3. rewrite <- Va in N3. set (a := b2r (fadd v (fmul f (fsub t v)))) in *.
  replace (b2r t - a)%R with ((1 - k) * (b2r t - b2r v) - (m - k * (b2r t - b2r v)) - (a - (b2r v + m)))%R by ring.
  eapply Rle_trans; [apply Rabs_triang|]. rewrite Rabs_Ropp. eapply Rle_trans; [apply Rplus_le_compat_r, Rabs_triang|]. rewrite Rabs_Ropp. rewrite (Rabs_mult (1 - k)). fold d.
  assert (Rabs (1 - k) <= 513 / 512)%R by (apply Rabs_le; lra). assert (Rabs (1 - k) * d <= 513 / 512 * d)%R by nra. unfold unit_ in *. lra.
Qed.

(** the time that is left *)
Lemma time_part : forall (l : f64) (f : f32), fin l -> fin f -> (-20 <= b2r l <= 20)%R -> (0 <= b2r f <= 1025 / 512)%R ->
  let q := f_of_d (dmul (d_of_f f) (dsub l (d_of_Z 0))) in
  fin q /\ (Rabs (b2r q - b2r f * b2r l) <= 2 * unit_ * (b2r f * Rabs (b2r l)) + 3 * tiny)%R /\ ((0 <= b2r l)%R -> (0 <= b2r q)%R) /\ ((b2r l <= 0)%R -> (b2r q <= 0)%R).
Proof.
  intros l f Fl Ff Hl Hf. cbv zeta. pose proof tiny_small as Ti. destruct (zd_Z 0) as ((G0 & _) & W0); [lia|].
  destruct (zd_sub (-20) 20 l (d_of_Z 0) Fl G0) as ((F1 & _) & E1); [split; lia|rewrite W0; simpl; lra|]. rewrite W0 in E1. simpl in E1. rewrite Rminus_0_r, rnd64_id in E1 by apply rep64_b2r.
  destruct (d_of_f_exact f Ff) as (Vf & Gf). set (k := b2r f) in *. set (x := b2r l) in *.
  assert (Rabs (k * x) = k * Rabs x)%R as Ek by (rewrite Rabs_mult, (Rabs_pos_eq k) by lra; reflexivity).
  assert (Rabs x <= 20)%R as Hx by (apply Rabs_le; exact Hl). pose proof (Rabs_pos x) as Px. assert (0 <= k * Rabs x <= 60)%R as Pk by nra.
  destruct (zd_mul (-60) 60 (d_of_f f) _ Gf F1) as (Zm & Vm); [split; lia|rewrite Vf, E1; apply Rabs_le_inv; rewrite Ek; lra|]. rewrite Vf, E1 in Vm.
  destruct (zf_nar _ _ _ Zm) as ((Fn & _) & Vn); [split; lia|]. split; [exact Fn|].
  pose proof (near64 (k * x)) as N1. rewrite <- Vm in N1. set (m := b2r (dmul _ _)) in *. pose proof (near32 m) as N2. rewrite <- Vn in N2. set (q := b2r (f_of_d _)) in *. rewrite Ek in N1.
  assert (Rabs m <= (1 + unit_) * (k * Rabs x) + tiny)%R as Bm'. { replace m with ((m - k * x) + k * x)%R by ring. eapply Rle_trans; [apply Rabs_triang|]. rewrite Ek. unfold unit_ in *. lra. }
  split; [|split].
  - replace (q - k * x)%R with ((q - m) + (m - k * x))%R by ring. eapply Rle_trans; [apply Rabs_triang|]. unfold unit_ in *. lra.
  - intros P. rewrite Vn. apply rnd32_ge_r; [apply (rep32_IZR 0); lia|]. rewrite Vm. apply rnd64_ge_r; [apply (rep64_IZR 0); lia|]. simpl. nra.
  - intros P. rewrite Vn. apply rnd32_le_r; [apply (rep32_IZR 0); lia|]. rewrite Vm. apply rnd64_le_r; [apply (rep64_IZR 0); lia|]. simpl. nra.
Qed.
Lemma time_rest : forall (l : f64) (f : f32), fin l -> fin f -> (-20 <= b2r l <= 20)%R -> (0 <= b2r f <= 1)%R ->
  let l' := dsub l (d_of_f (f_of_d (dmul (d_of_f f) (dsub l (d_of_Z 0))))) in
  fin l' /\ (Rmax 0 (b2r l') <= (1 - b2r f * (1 - 4 * unit_)) * Rmax 0 (b2r l) + / 100000)%R /\ (-20 <= b2r l' <= 20)%R.
Proof.
  intros l f Fl Ff Hl Hf. cbv zeta. pose proof tiny_small as Ti. destruct (time_part l f Fl Ff Hl ltac:(lra)) as (Fq & Nq & S1 & S2). set (q := f_of_d _) in *. clearbody q.
  destruct (d_of_f_exact q Fq) as (Vq & Gq). set (k := b2r f) in *. set (x := b2r l) in *. set (y := b2r q) in *.
  assert (Rabs x <= 20)%R as Hx by (apply Rabs_le; exact Hl). pose proof (Rabs_pos x) as Px. assert (0 <= k * Rabs x <= Rabs x)%R as Pk by nra. apply Rabs_le_inv in Nq.
  assert (-20 <= x - y <= 20)%R as Bd.
  { destruct (Rle_lt_dec (Rabs x) 10) as [C|C]; [apply Rabs_le_inv in C; assert (- Rabs x <= k * x <= Rabs x)%R by (apply Rabs_le_inv; rewrite Rabs_mult, (Rabs_pos_eq k) by lra; lra); apply Rabs_le_inv in Hx; unfold unit_ in *|].
    - split; [|]; assert (Rabs x <= 10)%R by (apply Rabs_le; exact C); lra.
    - destruct (Rle_lt_dec 0 x) as [P|P]; [rewrite (Rabs_pos_eq x) in * by exact P; specialize (S1 P); unfold unit_ in *; split; lra|].
      rewrite (Rabs_left x) in * by exact P. specialize (S2 (Rlt_le _ _ P)). unfold unit_ in *. split; nra. }
  destruct (zd_sub (-20) 20 l (d_of_f q) Fl Gq) as ((F & H) & V); [split; lia|rewrite Vq; exact Bd|]. split; [exact F|]. split; [|exact H]. rewrite V, Vq. fold x y.
  pose proof (near64 (x - y)) as N. assert (Rabs (x - y) <= 20)%R by (apply Rabs_le; exact Bd). apply Rabs_le_inv in N.
  assert (x - y <= (1 - k * (1 - 4 * unit_)) * Rmax 0 x + / 200000)%R as K.
  { destruct (Rle_lt_dec 0 x) as [P|P]; [rewrite Rmax_right, (Rabs_pos_eq x) in * by exact P; unfold unit_ in *; lra|].
    rewrite Rmax_left by lra. rewrite (Rabs_left x) in * by exact P. assert (k * x >= x)%R by nra. unfold unit_ in *. lra. }
  assert (0 <= (1 - k * (1 - 4 * unit_)) * Rmax 0 x)%R by (apply Rmult_le_pos; [unfold unit_; lra|apply Rmax_l]).
  apply Rmax_lub; [lra|]. unfold unit_ in *. lra.
Qed.
Lemma time_over : forall (l : f64) (f : f32), fin l -> fin f -> (-5 <= b2r l <= 5)%R -> (0 <= b2r f <= 1025 / 512)%R ->
  let l' := dsub l (d_of_f (f_of_d (dmul (d_of_f f) (dsub l (d_of_Z 0))))) in fin l' /\ (-20 <= b2r l' <= 20)%R.
Proof.
  intros l f Fl Ff Hl Hf. cbv zeta. pose proof tiny_small as Ti. destruct (time_part l f Fl Ff ltac:(lra) Hf) as (Fq & Nq & _). set (q := f_of_d _) in *. clearbody q.
  destruct (d_of_f_exact q Fq) as (Vq & Gq). set (k := b2r f) in *. set (x := b2r l) in *. set (y := b2r q) in *.
  assert (Rabs x <= 5)%R as Hx by (apply Rabs_le; exact Hl). pose proof (Rabs_pos x) as Px. assert (0 <= k * Rabs x <= 11)%R as Pk by nra. apply Rabs_le_inv in Nq.
  assert (- 11 <= k * x <= 11)%R by (apply Rabs_le_inv; rewrite Rabs_mult, (Rabs_pos_eq k) by lra; lra).
  destruct (zd_sub (-20) 20 l (d_of_f q) Fl Gq) as ((F & H') & V); [split; lia|rewrite Vq; fold x y; unfold unit_ in *; simpl; lra|]. split; [exact F|]. exact H'.
Qed.

(** *** Times: not a number, or not negative *)
Definition ahead {p e} (x : binary_float p e) : Prop := match x with B754_infinity q | B754_finite q _ _ _ => q = false | _ => True end.
Lemma ahead_sign : forall p e (x : binary_float p e), Bsign x = false -> ahead x.
Proof. intros p e [q|q| |q m k H] S; cbn in *; auto. Qed.
Lemma ahead_pos : forall p e (x : binary_float p e), is_finite x = true -> (0 <= B2R x)%R -> ahead x.
Proof.
  intros p e [q|q| |q m k H] F P; cbn [ahead]; auto; [discriminate F|]. destruct q; [exfalso|reflexivity].
  cbn [B2R cond_Zopp] in P. exact (Rlt_not_le _ _ (F2R_lt_0 radix2 (Float radix2 (Z.neg m) k) eq_refl) P).
Qed.
Lemma ahead_value : forall p e (x : binary_float p e), ahead x -> (0 <= B2R x)%R.
Proof. intros p e [q|q| |q m k H] A; cbn [ahead B2R] in *; try lra. subst q. apply F2R_ge_0. cbn. lia. Qed.
Lemma ahead_nar : forall x : f64, ahead x -> ahead (f_of_d x).
Proof.
  intros [q|q| |q m k H] A; cbn [f_of_d ahead] in *; auto. subst q. set (z := binary_normalize _ _ _ _ _ _ _ _).
  pose proof (binary_normalize_correct 24 128 prec24 emax24 mode_NE (cond_Zopp false (Zpos m)) k false) as C. cbv zeta in C. fold z in C.
  assert (0 < F2R (Float radix2 (cond_Zopp false (Z.pos m)) k))%R as P by (apply F2R_gt_0; reflexivity).
  destruct (Rlt_bool _ _) in C.
  - destruct C as (_ & _ & C). apply ahead_sign. rewrite C. rewrite Rcompare_Gt by exact P. reflexivity.
  - rewrite Rlt_bool_false in C by lra. apply ahead_sign. clearbody z. destruct z as [q|q| |q m' k' H']; cbn in C |- *; try discriminate C; congruence.
Qed.
Lemma ahead_wid : forall x : f32, ahead x -> ahead (d_of_f x).
Proof.
  intros x A. destruct (is_finite x) eqn:F; [|destruct x; cbn in *; auto; discriminate F]. destruct (d_of_f_exact x F) as (V & G). apply ahead_pos; [exact G|]. change (0 <= b2r (d_of_f x))%R. rewrite V. apply (ahead_value _ _ _ A).
Qed.
Lemma ahead_add : forall x y : f64, ahead x -> ahead y -> ahead (dadd x y).
Proof.
  intros x y A B. destruct (is_finite x) eqn:Fx; [|destruct x as [q|q| |q m k H]; try discriminate Fx; destruct y as [q'|q'| |q' m' k' H']; cbn in A, B |- *; subst; cbn; auto; try (destruct q; reflexivity)].
  destruct (is_finite y) eqn:Fy; [|destruct y as [q'|q'| |q' m' k' H']; try discriminate Fy; destruct x as [q|q| |q m k H]; try discriminate Fx; cbn in A, B |- *; subst; cbn; auto].
  pose proof (Bplus_correct 53 1024 prec53 emax53 mode_NE x y Fx Fy) as C. change (Bplus mode_NE x y) with (dadd x y) in C. pose proof (ahead_value _ _ _ A) as Px. pose proof (ahead_value _ _ _ B) as Py.
  destruct (Rlt_bool_spec (Rabs (round radix2 (SpecFloat.fexp 53 1024) (round_mode mode_NE) (B2R x + B2R y))) (bpow radix2 1024)) as [K|K].
  - destruct C as (V & F & _). apply ahead_pos; [exact F|]. rewrite V. change (0 <= rnd64 (B2R x + B2R y))%R. apply rnd64_ge_r; [apply (rep64_IZR 0); lia|simpl; lra].
  - destruct C as (C & S). assert (Bsign x = false) as Sx.
    { destruct x as [q|q| |q m k H]; try discriminate Fx; [|exact A]. cbn in S. destruct q; [|reflexivity]. destruct y as [q'|q'| |q' m' k' H']; try discriminate Fy; cbn in S, B; [|congruence].
      exfalso. cbn [B2R] in K. rewrite Rplus_0_r, round_0, Rabs_R0 in K by (apply valid_rnd_N). pose proof (bpow_gt_0 radix2 1024). lra. }
    rewrite Sx in C. apply ahead_sign. destruct (dadd x y) as [q|q| |q m' k' H']; cbn in C |- *; try discriminate C; congruence.
Qed.
Lemma ahead_after : forall x : f64, dle x (d_of_Z 0) = false -> ahead x.
Proof. intros [q|q| |q m k H] D; cbn [ahead]; auto; destruct q; auto; exfalso; revert D; unfold dle, d_of_Z; cbn; discriminate. Qed.
Lemma ahead_split : forall x : f64, ahead x -> dlt (d_of_Z 5) x = false -> is_nan x = true \/ (fin x /\ (0 <= b2r x <= 5)%R).
Proof.
  intros x A D. destruct (is_finite x) eqn:F.
  - right. split; [exact F|]. split; [apply (ahead_value _ _ _ A)|]. destruct (zd_Z 5) as ((G5 & _) & W5); [lia|]. rewrite dlt_spec, W5 in D by auto. destruct (Rlt_bool_spec (IZR 5) (b2r x)); [discriminate D|]. simpl in *. lra.
  - destruct x as [q|q| |q m k H]; try discriminate F; [|left; reflexivity]. exfalso. cbn in A. subst q. revert D. destruct (zd_Z 5) as ((G5 & _) & _); [lia|]. destruct (d_of_Z 5) as [s|s| |s m k H]; try discriminate G5; cbn; try discriminate; destruct s; discriminate.
Qed.
