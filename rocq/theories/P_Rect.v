(** Properties C13 and C14: rectangles. *)
From Verif Require Import Base F32 F32Proofs Rect.
From Coq Require Import Reals Lra Permutation.
From Flocq Require Import Core.Core IEEE754.BinarySingleNaN.
Local Open Scope Z_scope.

(** ** Vocabulary: a rectangle is a set of pixels. *)
Definition inside (r : rect) (x y : Z) : Prop :=
  rx r <= x < rx r + rw r /\ ry r <= y < ry r + rh r.
Definition sub (r s : rect) : Prop := forall x y, inside r x y -> inside s x y.
(** non-empty / empty as the code understands it *)
Definition solid (r : rect) : Prop := 0 < rw r /\ 0 < rh r.
Definition proper (r : rect) : Prop := rw r = 0 \/ solid r.
(** coordinates of moderate size: all corners within +-2^29 *)
Definition LIM : Z := 536870912.
Definition moderate (r : rect) : Prop :=
  - LIM <= rx r /\ - LIM <= ry r /\ rx r + rw r <= LIM /\ ry r + rh r <= LIM.
Definition small_point (x y : Z) : Prop := - LIM <= x < LIM /\ - LIM <= y < LIM.

(** ** C13 *)
Lemma axis_ok : forall p s x, 0 < s -> - LIM <= p -> p + s <= LIM -> - LIM <= x < LIM ->
  expand_axis p s x = Ok (Z.min p x, Z.max (p + s) (x + 1) - Z.min p x).
Proof.
  intros p s x Hs Hp Hps Hx. unfold LIM in *. unfold expand_axis.
  destruct (Z.ltb_spec x p).
  - rewrite int_val_ok by (unfold INT_MIN, INT_MAX; lia). cbn [obind].
    rewrite int_val_ok by (unfold INT_MIN, INT_MAX; lia). cbn [obind]. do 2 f_equal; lia.
  - rewrite int_val_ok by (unfold INT_MIN, INT_MAX; lia). cbn [obind]. destruct (Z.leb_spec (p + s) x).
    + rewrite int_val_ok by (unfold INT_MIN, INT_MAX; lia). cbn [obind].
      rewrite int_val_ok by (unfold INT_MIN, INT_MAX; lia). cbn [obind]. do 2 f_equal; lia.
    + do 2 f_equal; lia.
Qed.

Definition join_point (r : rect) (x y : Z) : rect :=
  if rw r =? 0 then mkRect x y 1 1
  else mkRect (Z.min (rx r) x) (Z.min (ry r) y)
         (Z.max (rx r + rw r) (x + 1) - Z.min (rx r) x) (Z.max (ry r + rh r) (y + 1) - Z.min (ry r) y).

Lemma expand_point_ok : forall r x y, proper r -> moderate r -> small_point x y ->
  expand_point r x y = Ok (join_point r x y).
Proof.
  intros r x y P M (Hx & Hy). unfold expand_point, join_point. destruct (Z.eqb_spec (rw r) 0); auto.
  destruct P as [P|P]; [lia|]. destruct P, M as (M1 & M2 & M3 & M4).
  rewrite axis_ok by auto. cbn [obind]. rewrite axis_ok by auto. reflexivity.
Qed.

Lemma join_solid : forall r x y, proper r -> solid (join_point r x y).
Proof.
  intros r x y P. unfold join_point, solid. destruct (Z.eqb_spec (rw r) 0); cbn [rw rh]; [lia|].
  destruct P as [P|(P1 & P2)]; [lia|]. lia.
Qed.
Lemma join_moderate : forall r x y, proper r -> moderate r -> small_point x y -> moderate (join_point r x y).
Proof.
  intros r x y P (M1 & M2 & M3 & M4) (Hx & Hy). unfold join_point, moderate, LIM in *.
  destruct (Z.eqb_spec (rw r) 0); cbn [rx ry rw rh]; lia.
Qed.
Lemma join_in : forall r x y, proper r -> inside (join_point r x y) x y /\ sub r (join_point r x y).
Proof.
  intros r x y P. unfold join_point, sub, inside. destruct (Z.eqb_spec (rw r) 0); cbn [rx ry rw rh].
  - split; [lia|]. intros. lia.
  - destruct P as [P|(P1 & P2)]; [lia|]. split; [lia|]. intros. lia.
Qed.
Lemma sub_bounds : forall r s, solid r -> sub r s ->
  rx s <= rx r /\ ry s <= ry r /\ rx r + rw r <= rx s + rw s /\ ry r + rh r <= ry s + rh s.
Proof.
  intros r s (H1 & H2) H. pose proof (H (rx r) (ry r)) as A. pose proof (H (rx r + rw r - 1) (ry r + rh r - 1)) as B.
  unfold inside in *. lia.
Qed.
Lemma join_least : forall r x y s, proper r -> sub r s -> inside s x y -> sub (join_point r x y) s.
Proof.
  intros r x y s P S I x' y' H. unfold join_point in H. destruct (Z.eqb_spec (rw r) 0).
  - unfold inside in *. cbn [rx ry rw rh] in H. lia.
  - destruct P as [P|P]; [lia|]. pose proof (sub_bounds r s P S) as B. unfold inside in *. cbn [rx ry rw rh] in H. lia.
Qed.

(** Including a point: the result contains the point and the old rectangle and
    is contained in every other rectangle that does. *)
Theorem C13_include_point_is_smallest : forall r x y, proper r -> moderate r -> small_point x y ->
  exists r', expand_point r x y = Ok r' /\ solid r' /\ moderate r' /\
    inside r' x y /\ sub r r' /\
    forall s, inside s x y -> sub r s -> sub r' s.
Proof.
  intros r x y P M Hp. exists (join_point r x y). split; [apply expand_point_ok; auto|].
  split; [apply join_solid; auto|]. split; [apply join_moderate; auto|].
  destruct (join_in r x y P). split; auto. split; auto. intros. apply join_least; auto.
Qed.

Lemma solid_proper : forall r, solid r -> proper r. Proof. unfold proper. auto. Qed.

Lemma expand_rect_join : forall r o, proper r -> moderate r -> solid o -> moderate o ->
  expand_rect r o = Ok (join_point (join_point r (rx o) (ry o)) (rx o + rw o - 1) (ry o + rh o - 1)).
Proof.
  intros r o P M (So1 & So2) Mo. unfold expand_rect. pose proof Mo as (M1 & M2 & M3 & M4). unfold LIM in *.
  assert (small_point (rx o) (ry o)) as S1 by (unfold small_point, LIM; lia).
  assert (small_point (rx o + rw o - 1) (ry o + rh o - 1)) as S2 by (unfold small_point, LIM; lia).
  rewrite expand_point_ok by auto. cbn [obind].
  repeat (rewrite int_val_ok by (unfold INT_MIN, INT_MAX; lia); cbn [obind]).
  apply expand_point_ok; auto; [apply solid_proper, join_solid; auto|apply join_moderate; auto].
Qed.

(** Including a non-empty rectangle. *)
Theorem C13_include_rect_is_smallest : forall r o, proper r -> moderate r -> solid o -> moderate o ->
  exists r', expand_rect r o = Ok r' /\ solid r' /\ moderate r' /\ sub o r' /\ sub r r' /\
    forall s, sub o s -> sub r s -> sub r' s.
Proof.
  intros r o P M So Mo. rewrite expand_rect_join by auto. eexists. split; [reflexivity|].
  pose proof So as (So1 & So2). pose proof Mo as (M1 & M2 & M3 & M4). unfold LIM in *.
  assert (small_point (rx o) (ry o)) as S1 by (unfold small_point, LIM; lia).
  assert (small_point (rx o + rw o - 1) (ry o + rh o - 1)) as S2 by (unfold small_point, LIM; lia).
  set (r1 := join_point r (rx o) (ry o)).
  assert (solid r1) as R1 by (apply join_solid; auto). pose proof (solid_proper _ R1) as R1p.
  assert (moderate r1) as R1m by (apply join_moderate; auto).
  destruct (join_in r (rx o) (ry o) P) as (I1 & S3). fold r1 in I1, S3.
  destruct (join_in r1 (rx o + rw o - 1) (ry o + rh o - 1) R1p) as (I2 & S4).
  set (r2 := join_point r1 (rx o + rw o - 1) (ry o + rh o - 1)) in *.
  split; [apply join_solid; auto|]. split; [apply join_moderate; auto|].
  split; [|split].
  - intros x y H. apply S4 in I1. unfold inside in *. lia.
  - intros x y H. auto.
  - intros s H1 H2. apply join_least; auto.
    + apply join_least; auto. apply H1. unfold inside. lia.
    + apply H1. unfold inside. lia.
Qed.

(** The order in which points are included does not matter. *)
Definition include_all (r : rect) (pts : list (Z * Z)) : outcome rect :=
  ofold (fun r p => expand_point r (fst p) (snd p)) pts r.

Lemma include_all_ok : forall pts r, proper r -> moderate r -> Forall (fun p => small_point (fst p) (snd p)) pts ->
  exists r', include_all r pts = Ok r' /\ proper r' /\ moderate r' /\ (pts <> [] -> solid r') /\
    sub r r' /\ (forall p, In p pts -> inside r' (fst p) (snd p)) /\
    forall s, sub r s -> (forall p, In p pts -> inside s (fst p) (snd p)) -> sub r' s.
Proof.
  induction pts as [|p pts IH]; intros r P M F.
  - exists r. split; [reflexivity|]. split; [auto|]. split; [auto|]. split; [congruence|]. split; [intros x y H; auto|].
    split; [contradiction|]. intros s H _. exact H.
  - inversion F; subst. unfold include_all in *. cbn [ofold]. rewrite expand_point_ok by auto. cbn [obind].
    destruct (IH (join_point r (fst p) (snd p))) as (r' & E & P' & M' & S' & S1 & S2 & S3); auto.
    { apply solid_proper, join_solid; auto. } { apply join_moderate; auto. }
    destruct (join_in r (fst p) (snd p) P) as (I1 & I2).
    exists r'. split; [exact E|]. split; [auto|]. split; [auto|]. split; [|split; [|split]].
    + intros _. destruct pts as [|q pts]; [|apply S'; congruence]. cbn in E. injection E as <-. apply join_solid; auto.
    + intros x y H. auto.
    + intros q [<-|Hq]; auto.
    + intros s Hs Hq. apply S3; [|intros; apply Hq; right; auto]. apply join_least; auto. apply Hq. left. auto.
Qed.

Lemma sub_antisym : forall r s, solid r -> solid s -> sub r s -> sub s r -> r = s.
Proof.
  intros [a b c d] [a' b' c' d'] S1 S2 H1 H2. pose proof (sub_bounds _ _ S1 H1) as B1. pose proof (sub_bounds _ _ S2 H2) as B2.
  cbn [rx ry rw rh] in *. f_equal; lia.
Qed.

Theorem C13_order_irrelevant : forall r pts pts', proper r -> moderate r ->
  Forall (fun p => small_point (fst p) (snd p)) pts -> Permutation pts pts' ->
  include_all r pts = include_all r pts'.
Proof.
  intros r pts pts' P M F Pm. destruct (include_all_ok pts r P M F) as (r1 & E1 & P1 & M1 & S1 & A1 & B1 & C1).
  assert (Forall (fun p => small_point (fst p) (snd p)) pts') as F' by (eapply Permutation_Forall; eauto).
  destruct (include_all_ok pts' r P M F') as (r2 & E2 & P2 & M2 & S2 & A2 & B2 & C2).
  destruct pts as [|p pts].
  - apply Permutation_nil in Pm. subst. reflexivity.
  - assert (pts' <> []) as N by (intros ->; apply Permutation_sym, Permutation_nil in Pm; discriminate).
    rewrite E1, E2. f_equal. apply sub_antisym; auto.
    + apply S1. congruence.
    + apply C1; auto. intros q Hq. apply B2. eapply Permutation_in; eauto.
    + apply C2; auto. intros q Hq. apply B1. eapply Permutation_in; [apply Permutation_sym|]; eauto.
Qed.

(** For an empty rectangle the claim fails: including it adds two pixels. *)
Theorem C13_include_empty_rect_refuted : exists r' , expand_rect (mkRect 100 100 10 10) rect0 = Ok r' /\ inside r' 50 50.
Proof. eexists. split; [vm_compute; reflexivity|]. unfold inside. cbn [rx ry rw rh]. lia. Qed.

Example C13_case : include_all rect0 [(3, 5); (-2, 7); (1, 1)] = Ok (mkRect (-2) 1 6 7).
Proof. vm_compute. reflexivity. Qed.

(** ** C14 *)

(** The output index is inside the caller's array. *)
Lemma froundf_int : forall x : f32, fin x -> (0 <= b2r x)%R ->
  fin (froundf x) /\ exists q, 0 <= q /\ b2r (froundf x) = IZR q.
Proof.
  intros x F H0. destruct x as [s|s| |s m e H]; try discriminate F.
  - split; [reflexivity|]. exists 0. split; [lia|reflexivity].
  - cbn [froundf]. assert (s = false) as ->.
    { destruct s; auto. exfalso. assert (b2r (B754_finite true m e H : f32) < 0)%R; [|lra].
      cbn [B2R cond_Zopp]. apply F2R_lt_0. reflexivity. }
    destruct (Z.leb_spec 0 e).
    + split; [reflexivity|]. exists (Zpos m * 2 ^ e). split; [apply Z.mul_nonneg_nonneg; [lia|apply Z.pow_nonneg; lia]|].
      cbn [B2R cond_Zopp]. unfold F2R. cbn [Fnum Fexp]. rewrite mult_IZR. f_equal. apply (bpow_Z e). auto.
    + set (q := (2 * Zpos m + 2 ^ (- e)) / 2 ^ (1 - e)).
      assert (0 < 2 ^ (1 - e)) by (apply Z.pow_pos_nonneg; lia). assert (0 < 2 ^ (- e)) by (apply Z.pow_pos_nonneg; lia).
      assert (0 <= q) by (apply Z.div_pos; lia).
      assert (q <= 16777216).
      { unfold q. replace (2 ^ (1 - e)) with (2 * 2 ^ (- e)) by (rewrite <- Z.pow_succ_r by lia; f_equal; lia).
        assert (Zpos m < 16777216).
        { assert (Zpos m < 2 ^ 24); [|auto]. pose proof (proj1 (andb_prop _ _ H)) as Hb. unfold SpecFloat.canonical_mantissa in Hb.
          apply Zeq_bool_eq in Hb. unfold SpecFloat.fexp, SpecFloat.emin in Hb.
          rewrite Digits.Zpos_digits2_pos in Hb.
          change (Zpos m) with (Z.abs (Zpos m)). apply (Digits.Zpower_gt_Zdigits radix2 24). lia. }
        assert (2 <= 2 ^ (- e)) by (change 2 with (2 ^ 1) at 1; apply Z.pow_le_mono_r; lia).
        assert ((2 * Zpos m + 2 ^ (- e)) / (2 * 2 ^ (- e)) < 16777217); [|lia]. apply Z.div_lt_upper_bound; nia. }
      destruct (f_of_Z_exact q) as (V & Fq); [lia|]. split; [exact Fq|]. exists q. auto.
Qed.

Lemma f_to_int_IZR : forall (x : f32) q, fin x -> b2r x = IZR q -> INT_MIN <= q <= INT_MAX -> f_to_int x = Ok q.
Proof.
  intros x q F V H. unfold f_to_int. rewrite (f_to_Z_ok INT_MIN INT_MAX x) by (auto; rewrite V, Ztrunc_IZR; auto).
  rewrite V, Ztrunc_IZR. reflexivity.
Qed.

Lemma roi_index_ok : forall n k i, 1 <= k -> 0 <= i < n -> n <= 16777216 ->
  exists j, roi_index n k i = Ok j /\ 0 <= j < k /\ j < n /\ (n <= k -> j = i).
Proof.
  intros n k i Hk Hi Hn. unfold roi_index. destruct (Z.ltb_spec k n); [|exists i; repeat split; auto; lia].
  destruct (f_of_Z_exact n) as (Vn & Fn); [lia|]. destruct (f_of_Z_exact k) as (Vk & Fk); [lia|].
  destruct (f_of_Z_exact i) as (Vi & Fi); [lia|]. destruct (f_of_Z_exact (k - 1)) as (Vk1 & Fk1); [lia|].
  destruct (f_of_Z_exact 1) as (V1 & F1); [lia|].
  assert (1 <= IZR k)%R as Rk by (apply IZR_le; lia). assert (IZR k <= IZR n)%R as Rkn by (apply IZR_le; lia).
  assert (IZR n <= 16777216)%R as Rn by (apply IZR_le; lia).
  assert (0 <= IZR i)%R as Ri by (apply IZR_le; lia). assert (IZR i <= 16777216)%R as Ri2 by (apply IZR_le; lia).
  assert (bpow radix2 127 = 170141183460469231731687303715884105728)%R as E127 by reflexivity.
  assert (1 <= IZR n / IZR k <= 16777216)%R as Hq.
  { split; [apply Rmult_le_reg_r with (IZR k)|apply Rmult_le_reg_r with (IZR k)]; try lra;
      unfold Rdiv; rewrite Rmult_assoc, Rinv_l by lra; nra. }
  destruct (fdiv_spec (f_of_Z n) (f_of_Z k) Fn) as (Vq & Fq).
  { rewrite Vk. lra. } { rewrite Vn, Vk, Rabs_pos_eq by lra. rewrite E127. lra. }
  rewrite Vn, Vk in Vq.
  assert (1 <= b2r (fdiv (f_of_Z n) (f_of_Z k)))%R as Q1.
  { rewrite Vq. apply rnd32_ge_r; [apply (rep32_IZR 1); lia|lra]. }
  assert (per_output n k = fdiv (f_of_Z n) (f_of_Z k)) as ->.
  { unfold per_output. rewrite flt_spec, V1 by auto. destruct (Rlt_bool_spec (b2r (fdiv (f_of_Z n) (f_of_Z k))) 1); [lra|reflexivity]. }
  set (q := fdiv (f_of_Z n) (f_of_Z k)) in *.
  assert (0 <= IZR i / b2r q <= 16777216)%R as Hd.
  { split; [apply Rmult_le_pos; [lra|left; apply Rinv_0_lt_compat; lra]|].
    apply Rmult_le_reg_r with (b2r q); [lra|]. unfold Rdiv. rewrite Rmult_assoc, Rinv_l by lra. nra. }
  destruct (fdiv_spec (f_of_Z i) q Fi) as (Vd & Fd).
  { lra. } { rewrite Vi, Rabs_pos_eq by lra. rewrite E127. lra. }
  rewrite Vi in Vd.
  assert (0 <= b2r (fdiv (f_of_Z i) q))%R as D0. { rewrite Vd. apply rnd32_ge_r; [apply (rep32_IZR 0); lia|lra]. }
  destruct (froundf_int _ Fd D0) as (Fr & z & Hz & Vz).
  rewrite flt_spec, Vk1, Vz by auto. cbv zeta.
  destruct (Rlt_bool_spec (IZR (k - 1)) (IZR z)) as [Hlt|Hle].
  - exists (k - 1). split; [apply f_to_int_IZR; auto; unfold INT_MIN, INT_MAX; lia|]. lia.
  - apply le_IZR in Hle. exists z. split; [apply f_to_int_IZR; auto; unfold INT_MIN, INT_MAX; lia|]. lia.
Qed.

Lemma at_index_nth : forall A (l : list A) i d, 0 <= i < Z.of_nat (length l) -> at_index l i = Ok (nth (Z.to_nat i) l d).
Proof.
  intros. unfold at_index. destruct (Z.ltb_spec i 0); [lia|]. rewrite (nth_error_nth' l d) by lia. reflexivity.
Qed.

Lemma clear_loop : forall (roi : list rect) n, (n <= length roi)%nat ->
  exists roi', ofold (fun roi i => let* _ := at_index roi i in Ok (upd roi (Z.to_nat i) rect0)) (zrange 0 n) roi = Ok roi' /\
    length roi' = length roi /\ forall j, nth j roi' rect0 = if Nat.ltb j n then rect0 else nth j roi rect0.
Proof.
  intros roi n. induction n; intros H.
  - exists roi. repeat split; auto.
  - destruct IHn as (r & E & L & N); [lia|]. replace (zrange 0 (S n)) with (zrange 0 n ++ [Z.of_nat n]).
    + rewrite ofold_app, E. cbn [obind ofold]. rewrite (at_index_nth _ _ _ rect0) by lia. cbn [obind]. rewrite Nat2Z.id.
      eexists. split; [reflexivity|]. split; [rewrite upd_length; auto|]. intros j. rewrite nth_upd, N.
      destruct (Nat.eqb_spec n j), (Nat.ltb_spec n (length r)), (Nat.ltb_spec j n), (Nat.ltb_spec j (S n)); cbn [andb]; try lia; auto.
    + unfold zrange. rewrite seq_S, map_app. reflexivity.
Qed.

Lemma nth_firstn_lt : forall A (l : list A) n j d, (j < n)%nat -> nth j (firstn n l) d = nth j l d.
Proof. induction l; intros [|n] [|j] d H; cbn; auto; try lia. apply IHl. lia. Qed.

Lemma rect0_sub : forall s, sub rect0 s.
Proof. intros s x y H. unfold inside in H. cbn [rx ry rw rh rect0] in H. lia. Qed.

Lemma expand_from_empty : forall o, solid o -> moderate o -> expand_rect rect0 o = Ok o.
Proof.
  intros o So Mo. destruct (C13_include_rect_is_smallest rect0 o) as (r & E & S & M & A & B & C); auto.
  - left. reflexivity. - unfold moderate, LIM. cbn [rx ry rw rh rect0]. lia.
  - rewrite E. f_equal. apply sub_antisym; auto. apply C; [intros x y H; auto|apply rect0_sub].
Qed.


Section Write.
  Context (boxes : list rect) (n k : nat).
  Context (Hb : (n <= length boxes)%nat) (Hk : (1 <= k)%nat) (Hn : Z.of_nat n <= 16777216).
  Context (Sb : forall i, (i < n)%nat -> solid (nth i boxes rect0) /\ moderate (nth i boxes rect0)).

  (** after the first [i] boxes *)
  Definition written (roi0 roi : list rect) (i : nat) : Prop :=
    length roi = length roi0 /\
    (forall j, (Nat.min k n <= j)%nat -> nth j roi rect0 = nth j roi0 rect0) /\
    (forall j, (j < Nat.min k n)%nat -> proper (nth j roi rect0) /\ moderate (nth j roi rect0)) /\
    (forall l, (l < i)%nat -> exists j, (j < Nat.min k n)%nat /\ sub (nth l boxes rect0) (nth j roi rect0)) /\
    (forall s, (forall l, (l < i)%nat -> sub (nth l boxes rect0) s) -> forall j, (j < Nat.min k n)%nat -> sub (nth j roi rect0) s) /\
    ((n <= k)%nat -> forall j, (j < n)%nat -> nth j roi rect0 = if Nat.ltb j i then nth j boxes rect0 else rect0).

  Definition write_step (roi : list rect) (i : Z) : outcome (list rect) :=
    let* j := roi_index (Z.of_nat n) (Z.of_nat k) i in
    let* r := at_index roi j in
    let* b := at_index boxes i in
    let* r := expand_rect r b in
    Ok (upd roi (Z.to_nat j) r).

  Lemma write_step_ok : forall roi0 roi i, (k <= length roi0)%nat -> (i < n)%nat -> written roi0 roi i ->
    exists roi', write_step roi (Z.of_nat i) = Ok roi' /\ written roi0 roi' (S i).
  Proof.
    intros roi0 roi i Lk Hi (L & O & P & C & T & One).
    destruct (roi_index_ok (Z.of_nat n) (Z.of_nat k) (Z.of_nat i)) as (j & Ej & Hj & Hj2 & Hj3); try lia.
    unfold write_step. rewrite Ej. cbn [obind]. rewrite (at_index_nth _ _ _ rect0) by lia. cbn [obind].
    rewrite (at_index_nth _ boxes _ rect0) by lia. cbn [obind]. rewrite Nat2Z.id.
    set (jn := Z.to_nat j). assert (jn < Nat.min k n)%nat as Hjn by lia.
    destruct (P jn Hjn) as (Pj & Mj). destruct (Sb i Hi) as (Si & Mi).
    destruct (C13_include_rect_is_smallest _ _ Pj Mj Si Mi) as (r & Er & Sr & Mr & A1 & A2 & A3).
    rewrite Er. cbn [obind]. eexists. split; [reflexivity|].
    assert (forall l, nth l (upd roi jn r) rect0 = if Nat.eqb jn l then r else nth l roi rect0) as N.
    { intros l. rewrite nth_upd. destruct (Nat.ltb_spec jn (length roi)); [|lia]. rewrite andb_true_r. reflexivity. }
    split; [rewrite upd_length; auto|]. split; [|split; [|split; [|split]]].
    - intros l Hl. rewrite N. destruct (Nat.eqb_spec jn l); [lia|]. auto.
    - intros l Hl. rewrite N. destruct (Nat.eqb_spec jn l); [split; auto; apply solid_proper; auto|auto].
    - intros l Hl. destruct (Nat.eq_dec l i) as [->|Ne].
      + exists jn. split; auto. rewrite N, Nat.eqb_refl. auto.
      + destruct (C l) as (j' & Hj' & Sj'); [lia|]. exists j'. split; auto. rewrite N. destruct (Nat.eqb_spec jn j'); [subst; intros x y H; auto|auto].
    - intros s Hs l Hl. rewrite N. destruct (Nat.eqb_spec jn l).
      + apply A3; [apply Hs; lia|]. apply T; auto.
      + apply T; auto.
    - intros Hnk l Hl. rewrite N. assert (jn = i) as E by lia. rewrite E. specialize (One Hnk).
      destruct (Nat.eqb_spec i l).
      + subst l. destruct (Nat.ltb_spec i (S i)); [|lia]. pose proof (One i Hi) as O1. destruct (Nat.ltb_spec i i); [lia|].
        rewrite E in Er. rewrite O1 in Er. rewrite expand_from_empty in Er by auto. congruence.
      + rewrite (One l Hl). destruct (Nat.ltb_spec l i), (Nat.ltb_spec l (S i)); try lia; auto.
  Qed.

  Lemma write_loop : forall roi0 roi, (k <= length roi0)%nat -> written roi0 roi 0 ->
    forall m, (m <= n)%nat -> exists roi', ofold write_step (zrange 0 m) roi = Ok roi' /\ written roi0 roi' m.
  Proof.
    intros roi0 roi Lk W m. induction m; intros Hm.
    - exists roi. auto.
    - destruct IHm as (r & E & W'); [lia|]. replace (zrange 0 (S m)) with (zrange 0 m ++ [Z.of_nat m]).
      + rewrite ofold_app, E. cbn [obind ofold]. destruct (write_step_ok roi0 r m Lk Hm W') as (r' & E' & W2).
        rewrite E'. cbn [obind]. eauto.
      + unfold zrange. rewrite seq_S, map_app. reflexivity.
  Qed.
End Write.

(** [boxes] are the boxes collected during the atomic operation, [roi] the
    caller's array, [k] the capacity told to end_atomic.  The write stays in the
    array, min(k, boxes) rectangles are reported and the others are not touched,
    every box is inside a reported rectangle, the reported rectangles do not
    exceed any rectangle that contains all boxes, and with enough capacity the
    boxes are reported one to one. *)
Theorem C14_output_fits_and_covers : forall (boxes roi : list rect) k,
  1 <= k <= Z.of_nat (length roi) -> Z.of_nat (length boxes) <= 16777216 ->
  Forall (fun b => solid b /\ moderate b) boxes ->
  exists out, write_roi boxes (Z.of_nat (length boxes)) roi k = Ok (out, Z.min k (Z.of_nat (length boxes))) /\
    length out = length roi /\
    (forall j, Z.min k (Z.of_nat (length boxes)) <= Z.of_nat j -> nth j out rect0 = nth j roi rect0) /\
    (forall b, In b boxes -> exists j, Z.of_nat j < Z.min k (Z.of_nat (length boxes)) /\ sub b (nth j out rect0)) /\
    (forall s, (forall b, In b boxes -> sub b s) ->
       forall j, Z.of_nat j < Z.min k (Z.of_nat (length boxes)) -> sub (nth j out rect0) s) /\
    (Z.of_nat (length boxes) <= k -> firstn (length boxes) out = boxes).
Proof.
  intros boxes roi k Hk Hn F. set (n := length boxes) in *. set (kn := Z.to_nat k).
  assert (Sb : forall i, (i < n)%nat -> solid (nth i boxes rect0) /\ moderate (nth i boxes rect0)).
  { intros i Hi. rewrite Forall_forall in F. apply F. apply nth_In. auto. }
  unfold write_roi. replace (Z.to_nat (Z.min k (Z.of_nat n))) with (Nat.min kn n) by lia.
  destruct (clear_loop roi (Nat.min kn n)) as (r1 & E1 & L1 & N1); [lia|]. rewrite E1. cbn [obind]. rewrite Nat2Z.id.
  destruct (write_loop boxes n kn ltac:(lia) ltac:(lia) ltac:(lia) Sb r1 r1 ltac:(lia)) with (m := n) as (out & E & L & O & P & C & T & One); [|lia|].
  { split; [auto|]. split; [auto|]. split; [|split; [|split]].
    - intros j Hj. rewrite N1. destruct (Nat.ltb_spec j (Nat.min kn n)); [|lia]. split; [left; reflexivity|]. unfold moderate, LIM. cbn [rx ry rw rh rect0]. lia.
    - intros. lia.
    - intros s _ j Hj. rewrite N1. destruct (Nat.ltb_spec j (Nat.min kn n)); [|lia]. apply rect0_sub.
    - intros Hnk j Hj. rewrite N1. destruct (Nat.ltb_spec j (Nat.min kn n)); [|lia]. reflexivity. }
  unfold write_step in E. replace (Z.of_nat kn) with k in E by lia. rewrite E. cbn [obind]. exists out. split; [reflexivity|]. split; [congruence|].
  split; [|split; [|split]].
  - intros j Hj. rewrite O by lia. rewrite N1. destruct (Nat.ltb_spec j (Nat.min kn n)); [lia|]. reflexivity.
  - intros b Hin. apply (In_nth boxes b rect0) in Hin. destruct Hin as (l & Hl & <-). destruct (C l Hl) as (j & Hj & S). exists j. split; [lia|auto].
  - intros s Hs j Hj. apply T; [|lia]. intros l Hl. apply Hs. apply nth_In. auto.
  - intros Hnk. apply (nth_ext _ _ rect0 rect0).
    + rewrite firstn_length. lia.
    + rewrite firstn_length. intros j Hj. rewrite nth_firstn_lt by lia. rewrite (One ltac:(lia)) by lia.
      destruct (Nat.ltb_spec j n); [reflexivity|lia].
Qed.

(** Beyond 2^24 boxes the index computed in float arithmetic leaves the array. *)
Theorem C14_huge_number_of_boxes_refuted : roi_index 16777221 16777220 16777220 = Ok 16777220.
Proof. vm_compute. reflexivity. Qed.

(** With capacity 0 and something painted the write is out of bounds. *)
Theorem C14_capacity_zero_refuted : write_roi [mkRect 1 2 3 4] 1 [] 0 = UB.
Proof. vm_compute. reflexivity. Qed.

Example C14_case :
  write_roi [mkRect 0 0 2 2; mkRect 10 10 1 1; mkRect (-5) 4 1 1] 3 [mkRect 7 7 7 7; mkRect 8 8 8 8; rect0] 2
  = Ok ([mkRect 0 0 2 2; mkRect (-5) 4 16 7; rect0], 2).
Proof. vm_compute. reflexivity. Qed.

Print Assumptions C13_include_rect_is_smallest.
Print Assumptions C13_order_irrelevant.
Print Assumptions C14_output_fits_and_covers.
