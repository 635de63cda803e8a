(** Interval facts about single and double precision for the end-to-end theorem
    (P_Easel.v): intervals with whole bounds are closed under rounded operations. *)
From Verif Require Import Base F32 F32Proofs Arith Color.
From Coq Require Import Reals Lra Psatz.
From Flocq Require Import Core.Core IEEE754.BinarySingleNaN.
Local Open Scope Z_scope.

(** a float, a double that is a number between two integers *)
Definition zf (lo : Z) (x : f32) (hi : Z) : Prop := fin x /\ (IZR lo <= b2r x <= IZR hi)%R.
Definition zd (lo : Z) (x : f64) (hi : Z) : Prop := fin x /\ (IZR lo <= b2r x <= IZR hi)%R.

Definition ok_bounds (lo hi : Z) : Prop := -16777216 <= lo /\ hi <= 16777216.

Lemma pow24 : (IZR 16777216 <= bpow radix2 127 /\ IZR 16777216 <= bpow radix2 1023)%R.
Proof. split; (apply Rle_trans with (bpow radix2 24); [change (bpow radix2 24) with 16777216%R; lra|apply bpow_le; lia]). Qed.

Lemma within_bounds : forall lo hi x, ok_bounds lo hi -> (IZR lo <= x <= IZR hi)%R -> (Rabs x <= IZR 16777216)%R.
Proof. intros lo hi x (A & B) (C & D). apply IZR_le in A, B. apply Rabs_le. lra. Qed.
Lemma rnd32_z : forall lo hi x, ok_bounds lo hi -> (IZR lo <= x <= IZR hi)%R -> (IZR lo <= rnd32 x <= IZR hi)%R.
Proof.
  intros lo hi x B H. assert (lo <= hi) by (apply le_IZR; lra). unfold ok_bounds in B.
  split; [apply rnd32_ge_r; [apply rep32_IZR; lia|lra]|apply rnd32_le_r; [apply rep32_IZR; lia|lra]].
Qed.
Lemma rnd64_z : forall lo hi x, ok_bounds lo hi -> (IZR lo <= x <= IZR hi)%R -> (IZR lo <= rnd64 x <= IZR hi)%R.
Proof.
  intros lo hi x B H. assert (lo <= hi) by (apply le_IZR; lra). unfold ok_bounds in B.
  split; [apply rnd64_ge_r; [apply rep64_IZR; lia|lra]|apply rnd64_le_r; [apply rep64_IZR; lia|lra]].
Qed.

Lemma zf_weak : forall lo hi lo' hi' x, zf lo x hi -> lo' <= lo -> hi <= hi' -> zf lo' x hi'.
Proof. intros lo hi lo' hi' x (F & H) A B. apply IZR_le in A, B. split; [exact F|lra]. Qed.
Lemma zd_weak : forall lo hi lo' hi' x, zd lo x hi -> lo' <= lo -> hi <= hi' -> zd lo' x hi'.
Proof. intros lo hi lo' hi' x (F & H) A B. apply IZR_le in A, B. split; [exact F|lra]. Qed.

(** the rounded operations, from bounds on the exact result *)
Lemma zf_add : forall lo hi x y, fin x -> fin y -> ok_bounds lo hi -> (IZR lo <= b2r x + b2r y <= IZR hi)%R ->
  zf lo (fadd x y) hi /\ b2r (fadd x y) = rnd32 (b2r x + b2r y).
Proof.
  intros lo hi x y Fx Fy B H. pose proof pow24. pose proof (within_bounds lo hi _ B H). destruct (fadd_spec x y Fx Fy) as (V & F); [lra|].
  split; [|exact V]. split; [exact F|]. rewrite V. apply rnd32_z; auto.
Qed.
Lemma zf_sub : forall lo hi x y, fin x -> fin y -> ok_bounds lo hi -> (IZR lo <= b2r x - b2r y <= IZR hi)%R ->
  zf lo (fsub x y) hi /\ b2r (fsub x y) = rnd32 (b2r x - b2r y).
Proof.
  intros lo hi x y Fx Fy B H. pose proof pow24. pose proof (within_bounds lo hi _ B H). destruct (fsub_spec x y Fx Fy) as (V & F); [lra|].
  split; [|exact V]. split; [exact F|]. rewrite V. apply rnd32_z; auto.
Qed.
Lemma zf_mul : forall lo hi x y, fin x -> fin y -> ok_bounds lo hi -> (IZR lo <= b2r x * b2r y <= IZR hi)%R ->
  zf lo (fmul x y) hi /\ b2r (fmul x y) = rnd32 (b2r x * b2r y).
Proof.
  intros lo hi x y Fx Fy B H. pose proof pow24. pose proof (within_bounds lo hi _ B H). destruct (fmul_spec x y Fx Fy) as (V & F); [lra|].
  split; [|exact V]. split; [exact F|]. rewrite V. apply rnd32_z; auto.
Qed.
Lemma zf_div : forall lo hi x y, fin x -> fin y -> b2r y <> 0%R -> ok_bounds lo hi -> (IZR lo <= b2r x / b2r y <= IZR hi)%R ->
  zf lo (fdiv x y) hi /\ b2r (fdiv x y) = rnd32 (b2r x / b2r y).
Proof.
  intros lo hi x y Fx Fy Ny B H. pose proof pow24. pose proof (within_bounds lo hi _ B H). destruct (fdiv_spec x y Fx Ny) as (V & F); [lra|].
  split; [|exact V]. split; [exact F|]. rewrite V. apply rnd32_z; auto.
Qed.
Lemma zd_add : forall lo hi x y, fin x -> fin y -> ok_bounds lo hi -> (IZR lo <= b2r x + b2r y <= IZR hi)%R ->
  zd lo (dadd x y) hi /\ b2r (dadd x y) = rnd64 (b2r x + b2r y).
Proof.
  intros lo hi x y Fx Fy B H. pose proof pow24. pose proof (within_bounds lo hi _ B H). destruct (dadd_spec x y Fx Fy) as (V & F); [lra|].
  split; [|exact V]. split; [exact F|]. rewrite V. apply rnd64_z; auto.
Qed.
Lemma zd_sub : forall lo hi x y, fin x -> fin y -> ok_bounds lo hi -> (IZR lo <= b2r x - b2r y <= IZR hi)%R ->
  zd lo (dsub x y) hi /\ b2r (dsub x y) = rnd64 (b2r x - b2r y).
Proof.
  intros lo hi x y Fx Fy B H. pose proof pow24. pose proof (within_bounds lo hi _ B H). destruct (dsub_spec x y Fx Fy) as (V & F); [lra|].
  split; [|exact V]. split; [exact F|]. rewrite V. apply rnd64_z; auto.
Qed.
Lemma zd_mul : forall lo hi x y, fin x -> fin y -> ok_bounds lo hi -> (IZR lo <= b2r x * b2r y <= IZR hi)%R ->
  zd lo (dmul x y) hi /\ b2r (dmul x y) = rnd64 (b2r x * b2r y).
Proof.
  intros lo hi x y Fx Fy B H. pose proof pow24. pose proof (within_bounds lo hi _ B H). destruct (dmul_spec x y Fx Fy) as (V & F); [lra|].
  split; [|exact V]. split; [exact F|]. rewrite V. apply rnd64_z; auto.
Qed.
Lemma zd_div : forall lo hi x y, fin x -> fin y -> b2r y <> 0%R -> ok_bounds lo hi -> (IZR lo <= b2r x / b2r y <= IZR hi)%R ->
  zd lo (ddiv x y) hi /\ b2r (ddiv x y) = rnd64 (b2r x / b2r y).
Proof.
  intros lo hi x y Fx Fy Ny B H. pose proof pow24. pose proof (within_bounds lo hi _ B H). destruct (ddiv_spec x y Fx Ny) as (V & F); [lra|].
  split; [|exact V]. split; [exact F|]. rewrite V. apply rnd64_z; auto.
Qed.
Lemma zf_nar : forall lo hi x, zd lo x hi -> ok_bounds lo hi -> zf lo (f_of_d x) hi /\ b2r (f_of_d x) = rnd32 (b2r x).
Proof.
  intros lo hi x (Fx & H) B. pose proof pow24. pose proof (within_bounds lo hi _ B H). destruct (f_of_d_spec x Fx) as (V & F); [lra|].
  split; [|exact V]. split; [exact F|]. rewrite V. apply rnd32_z; auto.
Qed.
Lemma zd_wid : forall lo hi x, zf lo x hi -> zd lo (d_of_f x) hi /\ b2r (d_of_f x) = b2r x.
Proof. intros lo hi x (Fx & H). destruct (d_of_f_exact x Fx) as (V & F). split; [split; [exact F|rewrite V; exact H]|exact V]. Qed.
Lemma zf_Z : forall z, Z.abs z <= 16777216 -> zf z (f_of_Z z) z /\ b2r (f_of_Z z) = IZR z.
Proof. intros z H. destruct (f_of_Z_exact z) as (V & F); [lia|]. split; [split; [exact F|rewrite V; lra]|exact V]. Qed.
Lemma zd_Z : forall z, Z.abs z <= 16777216 -> zd z (d_of_Z z) z /\ b2r (d_of_Z z) = IZR z.
Proof. intros z H. destruct (d_of_Z_exact z) as (V & F); [lia|]. split; [split; [exact F|rewrite V; lra]|exact V]. Qed.

(** the rounding error of a number of moderate size *)
Lemma rnd32_slack : forall x, (Rabs x <= 4194304)%R -> (Rabs (rnd32 x - x) <= / 4)%R.
Proof.
  intros x H. apply Rle_trans with (bpow radix2 (22 - 25)); [|change (bpow radix2 (22 - 25)) with (/ 8)%R; lra].
  apply rnd32_err; [change (bpow radix2 22) with 4194304%R; exact H|lia].
Qed.

(** ** Going from [v] towards [t] by the fraction [f] *)
(** at most all the way: the result stays in an interval that contains the target
    with a margin of one *)
Lemma move_in : forall a b c e (v t d f : f32), zf a v b -> zf c t e -> a + 1 <= c -> e + 1 <= b -> -1048576 <= a -> b <= 1048576 ->
  fin f -> (0 <= b2r f <= 1)%R -> fin d -> b2r d = rnd32 (b2r f * b2r (fsub t v)) -> zf a (fadd v d) b.
Proof.
  intros a b c e v t d f (Fv & Hv) (Ft & Ht) H1 H2 H3 H4 Ff Hf Fd Vd. apply IZR_le in H1, H2, H3, H4. rewrite plus_IZR in H1, H2.
  assert (Bt : (Rabs (b2r t - b2r v) <= 4194304)%R) by (apply Rabs_le; lra).
  destruct (zf_sub (-4194304) 4194304 t v Ft Fv) as ((Fs & Hs) & Vs); [split; lia|apply Rabs_le_inv in Bt; lra|].
  pose proof (rnd32_slack _ Bt) as S1. rewrite <- Vs in S1. apply Rabs_le_inv in S1.
  set (s := b2r (fsub t v)) in *. set (k := b2r f) in *.
  assert (Bp : (Rabs (k * s) <= 4194304)%R).
  { rewrite Rabs_mult, (Rabs_pos_eq k) by lra. assert (Rabs s <= 4194304)%R by (apply Rabs_le; lra). pose proof (Rabs_pos s). nra. }
  pose proof (rnd32_slack _ Bp) as S2. rewrite <- Vd in S2. apply Rabs_le_inv in S2.
  assert (IZR a <= b2r v + b2r d <= IZR b)%R as Q.
  { destruct (Rle_lt_dec 0 s) as [P|P].
    - assert (0 <= b2r d)%R by (rewrite Vd; apply rnd32_ge_r; [apply rep32_IZR; lia|nra]). assert (k * s <= s)%R by nra. lra.
    - assert (b2r d <= 0)%R by (rewrite Vd; apply rnd32_le_r; [apply rep32_IZR; lia|nra]). assert (s <= k * s)%R by nra. lra. }
  apply zf_add; auto. split; apply le_IZR; lra.
Qed.
(** up to three times too far *)
Lemma move_out : forall k m (v t d f : f32), zf (- k) v k -> zf (- m) t m -> 0 <= k -> 0 <= m -> 4 * k + 3 * m + 2 <= 1048576 ->
  fin f -> (0 <= b2r f <= 3)%R -> fin d -> b2r d = rnd32 (b2r f * b2r (fsub t v)) -> zf (- (4 * k + 3 * m + 2)) (fadd v d) (4 * k + 3 * m + 2).
Proof.
  intros k m v t d f (Fv & Hv) (Ft & Ht) H1 H2 H3 Ff Hf Fd Vd.
  rewrite opp_IZR in Hv, Ht. pose proof (IZR_le _ _ H1). pose proof (IZR_le _ _ H2). pose proof (IZR_le _ _ H3) as H3'. rewrite !plus_IZR, !mult_IZR in H3'.
  assert (Bt : (Rabs (b2r t - b2r v) <= 4194304)%R) by (apply Rabs_le; lra).
  destruct (zf_sub (-4194304) 4194304 t v Ft Fv) as ((Fs & Hs) & Vs); [split; lia|apply Rabs_le_inv in Bt; lra|].
  pose proof (rnd32_slack _ Bt) as S1. rewrite <- Vs in S1. apply Rabs_le_inv in S1.
  set (s := b2r (fsub t v)) in *. set (g := b2r f) in *.
  assert (A : (Rabs s <= IZR k + IZR m + / 4)%R) by (apply Rabs_le; lra).
  assert (Bp' : (Rabs (g * s) <= 3 * (IZR k + IZR m + / 4))%R).
  { rewrite Rabs_mult, (Rabs_pos_eq g) by lra. pose proof (Rabs_pos s). nra. }
  assert (Bp : (Rabs (g * s) <= 4194304)%R) by lra.
  pose proof (rnd32_slack _ Bp) as S2. rewrite <- Vd in S2. apply Rabs_le_inv in S2. apply Rabs_le_inv in Bp'.
  apply zf_add; auto; [split; lia|]. rewrite opp_IZR, !plus_IZR, !mult_IZR. lra.
Qed.
(** up to twice too far: the result is between the two ends, mirrored at the target *)
Lemma move_two : forall k m n (v t d f : f32), zf (- k) v k -> zf (- m) t m -> 0 <= k -> 0 <= m -> 513 * k + 1025 * m + 1024 <= 512 * n -> n <= 1048576 ->
  fin f -> (0 <= b2r f <= 1025 / 512)%R -> fin d -> b2r d = rnd32 (b2r f * b2r (fsub t v)) -> zf (- n) (fadd v d) n.
Proof.
  intros k m n v t d f (Fv & Hv) (Ft & Ht) H1 H2 H3 H4 Ff Hf Fd Vd.
  rewrite opp_IZR in Hv, Ht. pose proof (IZR_le _ _ H1). pose proof (IZR_le _ _ H2). pose proof (IZR_le _ _ H3) as H3'. pose proof (IZR_le _ _ H4). rewrite !plus_IZR, !mult_IZR in H3'.
  assert (Bt : (Rabs (b2r t - b2r v) <= 4194304)%R) by (apply Rabs_le; lra).
  destruct (zf_sub (-4194304) 4194304 t v Ft Fv) as ((Fs & Hs) & Vs); [split; lia|apply Rabs_le_inv in Bt; lra|].
  pose proof (rnd32_slack _ Bt) as S1. rewrite <- Vs in S1. apply Rabs_le_inv in S1.
  set (s := b2r (fsub t v)) in *. set (g := b2r f) in *. set (x := b2r v) in *. set (y := b2r t) in *.
  assert (Bp : (Rabs (g * s) <= 4194304)%R).
  { rewrite Rabs_mult, (Rabs_pos_eq g) by lra. assert (Rabs s <= IZR k + IZR m + / 4)%R by (apply Rabs_le; lra). pose proof (Rabs_pos s).
    apply Rle_trans with (1025 / 512 * (IZR k + IZR m + / 4))%R; [apply Rmult_le_compat; lra|lra]. }
  pose proof (rnd32_slack _ Bp) as S2. rewrite <- Vd in S2. apply Rabs_le_inv in S2.
  assert (- (513 / 512 * IZR k + 1025 / 512 * IZR m) <= x + g * (y - x) <= 513 / 512 * IZR k + 1025 / 512 * IZR m)%R as Q.
  { replace (x + g * (y - x))%R with ((1 - g) * x + g * y)%R by ring. assert (Rabs ((1 - g) * x) <= 513 / 512 * IZR k)%R as A1 by (rewrite Rabs_mult; apply Rmult_le_compat; try apply Rabs_pos; apply Rabs_le; lra).
    assert (Rabs (g * y) <= 1025 / 512 * IZR m)%R as A2 by (rewrite Rabs_mult; apply Rmult_le_compat; try apply Rabs_pos; apply Rabs_le; lra). apply Rabs_le_inv in A1, A2. lra. }
  assert (- (1025 / 512 * / 4) <= g * (s - (y - x)) <= 1025 / 512 * / 4)%R as W.
  { apply Rabs_le_inv. rewrite Rabs_mult. apply Rmult_le_compat; try apply Rabs_pos; apply Rabs_le; lra. }
  replace (g * (s - (y - x)))%R with (g * s - g * (y - x))%R in W by ring.
  apply zf_add; auto; [split; lia|]. rewrite opp_IZR. fold x. lra.
Qed.
(** exactly all the way *)
Lemma move_all : forall a b c e (v t : f32), zf a v b -> zf c t e -> -1048576 <= a -> b <= 1048576 -> -1048576 <= c -> e <= 1048576 ->
  zf (c - 1) (fadd v (fsub t v)) (e + 1).
Proof.
  intros a b c e v t (Fv & Hv) (Ft & Ht) H1 H2 H3 H4. pose proof (IZR_le _ _ H1). pose proof (IZR_le _ _ H2). pose proof (IZR_le _ _ H3). pose proof (IZR_le _ _ H4).
  assert (Bt : (Rabs (b2r t - b2r v) <= 4194304)%R) by (apply Rabs_le; lra).
  destruct (zf_sub (-4194304) 4194304 t v Ft Fv) as ((Fs & Hs) & Vs); [split; lia|apply Rabs_le_inv in Bt; lra|].
  pose proof (rnd32_slack _ Bt) as S1. rewrite <- Vs in S1. apply Rabs_le_inv in S1.
  assert (c <= e) by (apply le_IZR; lra). assert (a <= b) by (apply le_IZR; lra).
  apply zf_add; auto; [split; lia|]. rewrite minus_IZR, plus_IZR. lra.
Qed.

(** multiplying by one *)
Lemma mul_one_r : forall lo hi (x y : f32), zf lo x hi -> ok_bounds lo hi -> fin y -> b2r y = 1%R -> fin (fmul x y) /\ b2r (fmul x y) = b2r x.
Proof.
  intros lo hi x y (Fx & Hx) B Fy H. assert (b2r x * b2r y = b2r x)%R as E by (rewrite H; ring).
  destruct (zf_mul lo hi x y Fx Fy B) as ((F & _) & V); [rewrite E; exact Hx|]. split; [exact F|]. rewrite V, E. apply rnd32_id, rep32_b2r.
Qed.
