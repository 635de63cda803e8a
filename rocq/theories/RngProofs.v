(** Proofs about the random generator: the double computation is the image of
    an integer computation modulo 2^52, and all array accesses are in bounds. *)
From Verif Require Import Base F32 F32Proofs Rng.
From Coq Require Import Reals Lra.
From Flocq Require Import Core.Core IEEE754.BinarySingleNaN.
Local Open Scope Z_scope.
#[local] Transparent dadd dsub dmul d_of_Z.

(** ** Naturality: changing the number type commutes with the code *)

Definition omap {A B} (f : A -> B) (x : outcome A) : outcome B := obind x (fun a => Ok (f a)).

Lemma obind_nat : forall A B A' B' (g : A -> A') (h : B -> B') (x : outcome A) (x' : outcome A') k k',
  x' = omap g x -> (forall a, k' (g a) = omap h (k a)) -> obind x' k' = omap h (obind x k).
Proof. intros. subst. destruct x; simpl; auto. Qed.

Lemma ofold_nat : forall S S' E (g : S -> S') (f : S -> E -> outcome S) f' l s,
  (forall s a, f' (g s) a = omap g (f s a)) -> ofold f' l (g s) = omap g (ofold f l s).
Proof.
  intros S S' E g f f' l. induction l; intros s H; [reflexivity|].
  cbn [ofold]. eapply obind_nat; [apply H|]. intros. apply IHl; auto.
Qed.

Section Nat.
  Context {A B : Type} (msA : A -> A -> outcome A) (msB : B -> B -> outcome B) (d : A -> B).
  Hypothesis Hms : forall a b, msB (d a) (d b) = omap d (msA a b).
  Definition marr (l : list (option A)) : list (option B) := map (option_map d) l.

  Lemma rd_nat : forall l i, rd (marr l) i = omap d (rd l i).
  Proof.
    intros. unfold rd, marr. destruct (i <? 0); [reflexivity|].
    rewrite nth_error_map. destruct (nth_error l (Z.to_nat i)) as [[a|]|]; reflexivity.
  Qed.
  Lemma upd_map : forall (l : list (option A)) n v, upd (marr l) n (option_map d v) = marr (upd l n v).
  Proof. induction l; intros [|n] v; simpl; auto. f_equal. apply IHl. Qed.
  Lemma wr_nat : forall l i a, wr (marr l) i (d a) = omap marr (wr l i a).
  Proof.
    intros. unfold wr. unfold marr at 1. rewrite map_length. destruct (_ && _); [|reflexivity].
    cbn [omap obind]. f_equal. apply (upd_map l (Z.to_nat i) (Some a)).
  Qed.

  Ltac nat_step :=
    match goal with
    | |- rd (marr _) _ = omap d _ => apply rd_nat
    | |- wr (marr _) _ (d _) = omap marr _ => apply wr_nat
    | |- msB (d _) (d _) = omap d _ => apply Hms
    | |- ofold _ _ (marr _) = omap marr _ => apply ofold_nat; intros
    | |- obind (rd _ _) _ = _ => apply (obind_nat _ _ _ _ d); [|intros]
    | |- obind (msB _ _) _ = _ => apply (obind_nat _ _ _ _ d); [|intros]
    | |- obind (wr _ _ _) _ = _ => apply (obind_nat _ _ _ _ marr); [|intros]
    | |- obind (ofold _ _ _) _ = _ => apply (obind_nat _ _ _ _ marr); [|intros]
    end.

  Definition pmarr (p : list (option A) * list (option A)) := (marr (fst p), marr (snd p)).

  Lemma get_array_nat : forall u aa n,
    get_array msB (marr u) (marr aa) n = omap pmarr (get_array msA u aa n).
  Proof. intros. unfold get_array. cbv zeta. repeat nat_step. reflexivity. Qed.

  Context (zero : A).
  Lemma seed_round_nat : forall odd u,
    seed_round msB (d zero) odd (marr u) = omap marr (seed_round msA zero odd u).
  Proof.
    intros. unfold seed_round, seed_square. apply (obind_nat _ _ _ _ marr); [|intros]; repeat nat_step.
    destruct odd; repeat nat_step. reflexivity.
  Qed.

  Lemma seed_loop_nat : forall fuel s t u,
    seed_loop msB (d zero) fuel s t (marr u) = option_map (omap marr) (seed_loop msA zero fuel s t u).
  Proof.
    induction fuel; intros; cbn [seed_loop]; destruct (t =? 0); try reflexivity.
    rewrite seed_round_nat. destruct (seed_round msA zero (Z.odd s) u); try reflexivity.
    cbn [omap obind]. destruct (negb (s =? 0)); apply IHfuel.
  Qed.

  Lemma seed_finish_nat : forall r u,
    seed_finish msB (marr r) (marr u) = omap marr (seed_finish msA r u).
  Proof.
    intros. unfold seed_finish, seed_copy. apply (obind_nat _ _ _ _ marr); [repeat nat_step|]. intros a.
    apply (obind_nat _ _ _ _ pmarr).
    - change (marr a, marr u) with (pmarr (a, u)). apply ofold_nat. intros [r1 u1] j.
      cbn [pmarr fst snd]. apply get_array_nat.
    - intros [r1 u1]. reflexivity.
  Qed.
End Nat.

(** ** Doubles that are multiples of 2^-52 in [0,1) *)

Definition M52 : Z := 4503599627370496.
Definition d52 (a : Z) : f64 := binary_normalize 53 1024 prec53 emax53 mode_NE (a mod M52) (-52) false.

Ltac fold_rnd C := match type of C with context [round radix2 ?fe (round_mode mode_NE) ?x] =>
  change (round radix2 fe (round_mode mode_NE) x) with (rndg 53 1024 x) in C end.

Local Open Scope R_scope.
Definition v52 (a : Z) : R := IZR a * bpow radix2 (-52).

Lemma bp52 : bpow radix2 (-52) * 4503599627370496 = 1.
Proof.
  change 4503599627370496 with (bpow radix2 52). rewrite <- bpow_plus. reflexivity.
Qed.
Lemma bp52_pos : 0 < bpow radix2 (-52). Proof. apply bpow_gt_0. Qed.

Lemma v52_le1 : forall a, (0 <= a <= M52 * 2)%Z -> 0 <= v52 a <= 2.
Proof.
  intros a Ha. unfold v52. pose proof bp52_pos. pose proof bp52.
  assert (0 <= IZR a <= 4503599627370496 * 2) as (A & B)
    by (rewrite <- mult_IZR; split; apply IZR_le; unfold M52 in Ha; lia).
  split; [apply Rmult_le_pos; lra|].
  apply Rle_trans with (4503599627370496 * 2 * bpow radix2 (-52)); [apply Rmult_le_compat_r; lra|]. lra.
Qed.

Lemma v52_lt1 : forall a, (0 <= a < M52)%Z -> 0 <= v52 a < 1.
Proof.
  intros a Ha. unfold v52. pose proof bp52_pos. pose proof bp52.
  assert (0 <= IZR a /\ IZR a < 4503599627370496) as (A & B)
    by (split; [apply IZR_le|apply IZR_lt]; unfold M52 in Ha; lia).
  split; [apply Rmult_le_pos; lra|].
  apply Rlt_le_trans with (4503599627370496 * bpow radix2 (-52)); [apply Rmult_lt_compat_r; lra|]. lra.
Qed.

Lemma v52_rep : forall a, (Z.abs a <= M52 * 2)%Z -> rep64 (v52 a).
Proof. intros. unfold v52. apply rep64_scaled; unfold M52 in *; lia. Qed.

Lemma v52_big : forall a, (Z.abs a <= M52 * 2)%Z -> Rabs (v52 a) <= bpow radix2 1023.
Proof.
  intros a Ha. unfold v52. rewrite Rabs_mult, (Rabs_pos_eq (bpow radix2 (-52))) by (apply bpow_ge_0).
  rewrite <- abs_IZR. apply Rle_trans with (bpow radix2 53 * bpow radix2 (-52)).
  - apply Rmult_le_compat_r; [apply bpow_ge_0|]. rewrite bpow_Z by lia. apply IZR_le. unfold M52 in Ha. simpl; lia.
  - rewrite <- bpow_plus. apply bpow_le. lia.
Qed.

Lemma mod_range : forall a, (0 <= a mod M52 < M52)%Z.
Proof. intros. apply Z.mod_pos_bound. reflexivity. Qed.

Lemma d52_val : forall a, b2r (d52 a) = v52 (a mod M52) /\ fin (d52 a).
Proof.
  intros. unfold d52. pose proof (mod_range a).
  destruct (norm_spec 53 1024 prec53 emax53 (a mod M52) (-52) false) as (E & F).
  - change (F2R (Float radix2 (a mod M52) (-52))) with (v52 (a mod M52)). apply v52_big. unfold M52 in *; lia.
  - split; auto. rewrite E. apply rnd64_id. apply v52_rep. unfold M52 in *; lia.
Qed.

Lemma d52_sign : forall a, Bsign (d52 a) = false.
Proof.
  intros. unfold d52. pose proof (mod_range a).
  pose proof (binary_normalize_correct 53 1024 prec53 emax53 mode_NE (a mod M52) (-52) false) as C. cbv zeta in C.
  assert (Rabs (v52 (a mod M52)) <= bpow radix2 1023) as B by (apply v52_big; unfold M52 in *; lia).
  change (F2R (Float radix2 (a mod M52) (-52))) with (v52 (a mod M52)) in C. fold_rnd C.
  rewrite (big_ok 53 1024 prec53 emax53) in C by exact B. destruct C as (_ & _ & ->).
  destruct (v52_lt1 (a mod M52)) as (P & _); [auto|].
  destruct (Rcompare_spec (v52 (a mod M52)) 0); auto. lra.
Qed.

(** a double is [d52 a] as soon as it has that value and a positive sign *)
Lemma d52_uniq : forall (x : f64) a, fin x -> b2r x = v52 (a mod M52) -> Bsign x = false -> x = d52 a.
Proof.
  intros x a F V S. destruct (d52_val a) as (Ea & Fa).
  apply B2R_Bsign_inj; auto. - congruence. - rewrite S, d52_sign. reflexivity.
Qed.

Lemma v52_add : forall a b, v52 a + v52 b = v52 (a + b).
Proof. intros. unfold v52. rewrite plus_IZR. ring. Qed.
Lemma v52_one : v52 M52 = 1.
Proof. unfold v52, M52. rewrite Rmult_comm. apply bp52. Qed.

(** signs of sums and differences *)
Lemma dadd_val : forall x y a, fin x -> fin y -> b2r x + b2r y = v52 a -> (0 <= a <= M52 * 2)%Z ->
  b2r (dadd x y) = v52 a /\ fin (dadd x y) /\ (Bsign x = false -> Bsign y = false -> Bsign (dadd x y) = false).
Proof.
  intros x y a Fx Fy E Ha.
  pose proof (Bplus_correct 53 1024 prec53 emax53 mode_NE x y Fx Fy) as C.
  assert (Rabs (v52 a) <= bpow radix2 1023) as B by (apply v52_big; unfold M52 in *; lia).
  rewrite E in C. fold_rnd C. rewrite (big_ok 53 1024 prec53 emax53) in C by exact B. destruct C as (V & F & S).
  assert (b2r (dadd x y) = v52 a) as V'.
  { unfold dadd. rewrite V. apply rnd64_id. apply v52_rep. unfold M52 in *; lia. }
  split; [exact V'|]. split; [exact F|]. intros S1 S2. unfold dadd. rewrite S, S1, S2.
  destruct (v52_le1 a Ha) as (P & _). destruct (Rcompare_spec (v52 a) 0); auto. lra.
Qed.

Lemma dsub_val : forall x y a, fin x -> fin y -> b2r x - b2r y = v52 a -> (0 <= a <= M52 * 2)%Z ->
  b2r (dsub x y) = v52 a /\ fin (dsub x y) /\ (Bsign x = false -> Bsign (dsub x y) = false).
Proof.
  intros x y a Fx Fy E Ha.
  pose proof (Bminus_correct 53 1024 prec53 emax53 mode_NE x y Fx Fy) as C.
  assert (Rabs (v52 a) <= bpow radix2 1023) as B by (apply v52_big; unfold M52 in *; lia).
  rewrite E in C. fold_rnd C. rewrite (big_ok 53 1024 prec53 emax53) in C by exact B. destruct C as (V & F & S).
  assert (b2r (dsub x y) = v52 a) as V'.
  { unfold dsub. rewrite V. apply rnd64_id. apply v52_rep. unfold M52 in *; lia. }
  split; [exact V'|]. split; [exact F|]. intros S1. unfold dsub. rewrite S, S1.
  destruct (v52_le1 a Ha) as (P & _). destruct (Rcompare_spec (v52 a) 0); auto; try lra.
Qed.

Definition zms (a b : Z) : outcome Z := Ok ((a + b) mod M52)%Z.

Lemma d52_mod : forall a, d52 (a mod M52) = d52 a.
Proof. intros. unfold d52. rewrite Z.mod_mod by discriminate. reflexivity. Qed.

Lemma mod_sum_hom : forall a b, mod_sum (d52 a) (d52 b) = omap d52 (zms a b).
Proof.
  intros. unfold zms, omap. cbn [obind]. rewrite d52_mod.
  destruct (d52_val a) as (Va & Fa). destruct (d52_val b) as (Vb & Fb).
  pose proof (mod_range a) as Ra. pose proof (mod_range b) as Rb.
  set (x := (a mod M52)%Z) in *. set (y := (b mod M52)%Z) in *.
  destruct (dadd_val (d52 a) (d52 b) (x + y)%Z Fa Fb) as (Vs & Fs & Ss).
  { rewrite Va, Vb. apply v52_add. } { unfold M52 in *; lia. }
  specialize (Ss (d52_sign a) (d52_sign b)).
  assert (Hmod : ((a + b) mod M52 = (x + y) mod M52)%Z).
  { unfold x, y. rewrite <- Z.add_mod by discriminate. reflexivity. }
  unfold mod_sum, d_to_int.
  destruct (Z_lt_dec (x + y) M52) as [L|L].
  - assert (Ztrunc (b2r (dadd (d52 a) (d52 b))) = 0)%Z as T.
    { rewrite Vs. destruct (v52_lt1 (x + y)) as (P & Q); [lia|]. rewrite Ztrunc_floor by auto.
      apply Zfloor_imp. rewrite plus_IZR. lra. }
    rewrite d_to_Z_ok by (auto; rewrite T; unfold INT_MIN, INT_MAX; lia).
    rewrite T. cbn [obind]. f_equal.
    destruct (d_of_Z_exact 0) as (V0 & F0); [lia|].
    destruct (dsub_val (dadd (d52 a) (d52 b)) (d_of_Z 0) (x + y)%Z Fs F0) as (Vd & Fd & Sd).
    { rewrite Vs, V0. ring. } { unfold M52 in *; lia. }
    apply d52_uniq; auto. rewrite Vd, Hmod, Z.mod_small by lia. reflexivity.
  - assert (Ztrunc (b2r (dadd (d52 a) (d52 b))) = 1)%Z as T.
    { rewrite Vs. replace (x + y)%Z with (M52 + (x + y - M52))%Z by lia.
      rewrite <- v52_add, v52_one.
      destruct (v52_lt1 (x + y - M52)) as (P & Q); [lia|]. rewrite Ztrunc_floor by lra.
      apply Zfloor_imp. rewrite plus_IZR. lra. }
    rewrite d_to_Z_ok by (auto; rewrite T; unfold INT_MIN, INT_MAX; lia).
    rewrite T. cbn [obind]. f_equal.
    destruct (d_of_Z_exact 1) as (V1 & F1); [lia|].
    destruct (dsub_val (dadd (d52 a) (d52 b)) (d_of_Z 1) (x + y - M52)%Z Fs F1) as (Vd & Fd & Sd).
    { rewrite Vs, V1. replace (x + y)%Z with (M52 + (x + y - M52))%Z at 1 by lia.
      rewrite <- v52_add, v52_one. ring. } { unfold M52 in *; lia. }
    apply d52_uniq; auto. rewrite Vd, Hmod. f_equal.
    apply (Z.mod_unique _ _ 1); lia.
Qed.

Lemma d0_d52 : d0 = d52 0.
Proof. unfold d0. apply B2SF_inj. vm_compute. reflexivity. Qed.
Lemma ulp_d52 : d_ulp = d52 1.
Proof. apply B2SF_inj. vm_compute. reflexivity. Qed.
Lemma ulp2_d52 : dmul (d_of_Z 2) d_ulp = d52 2.
Proof. apply B2SF_inj. vm_compute. reflexivity. Qed.
Lemma one_ulp2 : dsub (d_of_Z 1) (dmul (d_of_Z 2) d_ulp) = d52 (M52 - 2).
Proof. apply B2SF_inj. vm_compute. reflexivity. Qed.

(** ** Seeding on integers *)

Local Open Scope Z_scope.
Definition zss_step (a : Z) : Z := if M52 <=? a + a then a + a - (M52 - 2) else a + a.

Lemma ss_step_hom : forall a, 0 <= a < M52 -> Z.even a = true ->
  ss_step (d52 a) = d52 (zss_step a) /\ 0 <= zss_step a < M52 /\ Z.even (zss_step a) = true.
Proof.
  intros a Ha Ev. apply Z.even_spec in Ev. split.
  - unfold ss_step. cbv zeta. destruct (d52_val a) as (Va & Fa). rewrite Z.mod_small in Va by auto.
    destruct (dadd_val (d52 a) (d52 a) (a + a) Fa Fa) as (Vs & Fs & Ss).
    { rewrite Va. apply v52_add. } { unfold M52 in *; lia. }
    specialize (Ss (d52_sign a) (d52_sign a)).
    destruct (d_of_Z_exact 1) as (V1 & F1); [lia|].
    assert (dle (d_of_Z 1) (dadd (d52 a) (d52 a)) = (M52 <=? a + a)) as C.
    { unfold dle. rewrite Bleb_correct by auto. rewrite V1, Vs, <- v52_one.
      unfold v52. destruct (Z.leb_spec M52 (a + a)) as [L|L].
      - apply Rle_bool_true. apply Rmult_le_compat_r; [apply bpow_ge_0|]. apply IZR_le. auto.
      - apply Rle_bool_false. apply Rmult_lt_compat_r; [apply bpow_gt_0|]. apply IZR_lt. auto. }
    rewrite C. unfold zss_step. destruct (Z.leb_spec M52 (a + a)) as [L|L].
    + rewrite one_ulp2. destruct (d52_val (M52 - 2)) as (V2 & F2). rewrite Z.mod_small in V2 by (unfold M52; lia).
      destruct (dsub_val (dadd (d52 a) (d52 a)) (d52 (M52 - 2)) (a + a - (M52 - 2)) Fs F2) as (Vd & Fd & Sd).
      { rewrite Vs, V2. unfold v52. rewrite <- Rmult_minus_distr_r, <- minus_IZR. reflexivity. } { unfold M52 in *; lia. }
      destruct (Z.eq_dec (a + a - (M52 - 2)) M52) as [X|X].
      * exfalso. destruct Ev as (k & ->). unfold M52 in *. lia.
      * apply d52_uniq; auto. rewrite Vd. rewrite Z.mod_small; [auto|]. unfold M52 in *; lia.
    + apply d52_uniq; auto. rewrite Vs, Z.mod_small by lia. reflexivity.
  - destruct Ev as (k & ->).
    unfold zss_step. destruct (Z.leb_spec M52 (2 * k + 2 * k)).
    + split; [unfold M52 in *; lia|]. replace (2 * k + 2 * k - (M52 - 2)) with (2 * (2 * k - 2251799813685248 + 1)) by (unfold M52; ring).
      rewrite Z.even_mul. reflexivity.
    + split; [lia|]. replace (2 * k + 2 * k) with (2 * (2 * k)) by lia. rewrite Z.even_mul. reflexivity.
Qed.

(** the seeded array on integers *)
Fixpoint zss (n : nat) (a : Z) : list Z := match n with O => [] | S n => a :: zss n (zss_step a) end.

Definition zseed_start (seed : Z) : list (option Z) :=
  let l := zss 10 (2 * (seed_bits seed + 2)) in
  map Some (upd l 1 (Z.succ (nth 1 l 0))) ++ repeat None 9.

Lemma seed_bits_range : forall s, 0 <= seed_bits s < 1073741824.
Proof.
  intros. unfold seed_bits. change 1073741823 with (Z.ones 30). rewrite Z.land_ones by lia.
  apply Z.mod_pos_bound. reflexivity.
Qed.

Lemma zss_ok : forall n a, 0 <= a < M52 -> Z.even a = true ->
  Forall (fun x => 0 <= x < M52 /\ Z.even x = true) (zss n a).
Proof.
  induction n; intros a Ha E; cbn [zss]; constructor; auto.
  destruct (ss_step_hom a Ha E) as (_ & H). apply IHn; tauto.
Qed.

Lemma d52_add_small : forall a b, 0 <= a -> 0 <= b -> a + b < M52 -> dadd (d52 a) (d52 b) = d52 (a + b).
Proof.
  intros a b Ha Hb H. destruct (d52_val a) as (Va & Fa). destruct (d52_val b) as (Vb & Fb).
  rewrite Z.mod_small in Va by lia. rewrite Z.mod_small in Vb by lia.
  destruct (dadd_val (d52 a) (d52 b) (a + b) Fa Fb) as (Vs & Fs & Ss).
  { rewrite Va, Vb. apply v52_add. } { unfold M52 in *; lia. }
  apply d52_uniq; auto using d52_sign. rewrite Vs, Z.mod_small by lia. reflexivity.
Qed.

Lemma seed_start_hom : forall seed, seed_start seed = Ok (marr d52 (zseed_start seed)).
Proof.
  intros. unfold seed_start. pose proof (seed_bits_range seed) as Rs.
  set (b := seed_bits seed) in *.
  assert (dmul (dmul (d_of_Z 2) d_ulp) (d_of_Z (b + 2)) = d52 (2 * (b + 2))) as ->.
  { rewrite ulp2_d52. destruct (d52_val 2) as (V2 & F2). change (2 mod M52) with 2 in V2.
    destruct (d_of_Z_exact (b + 2)) as (Vb & Fb); [lia|].
    pose proof (Bmult_correct 53 1024 prec53 emax53 mode_NE (d52 2) (d_of_Z (b + 2))) as C.
    assert (b2r (d52 2) * b2r (d_of_Z (b + 2)) = v52 (2 * (b + 2)))%R as E.
    { rewrite V2, Vb. unfold v52. rewrite mult_IZR. ring. }
    rewrite E in C. fold_rnd C. rewrite (big_ok 53 1024 prec53 emax53) in C by (apply v52_big; unfold M52; lia).
    destruct C as (V & F & S). apply d52_uniq.
    - unfold fin, dmul. rewrite F, F2, Fb. reflexivity.
    - unfold dmul. rewrite V. rewrite Z.mod_small by (unfold M52; lia). apply rnd64_id. apply v52_rep. unfold M52; lia.
    - unfold dmul. rewrite S.
      + rewrite d52_sign. unfold d_of_Z.
        pose proof (binary_normalize_correct 53 1024 prec53 emax53 mode_NE (b + 2) 0 false) as C2. cbv zeta in C2.
        assert (F2R (Float radix2 (b + 2) 0) = IZR (b + 2)) as Ef by (unfold F2R; simpl; ring).
        rewrite Ef in C2. fold_rnd C2.
        rewrite (big_ok 53 1024 prec53 emax53) in C2.
        * destruct C2 as (_ & _ & ->). assert (0 < IZR (b + 2))%R by (apply (IZR_lt 0); lia).
          destruct (Rcompare_spec (IZR (b + 2)) 0); auto; lra.
        * rewrite <- abs_IZR. apply Rle_trans with (bpow radix2 53).
          -- rewrite bpow_Z by lia. apply IZR_le. simpl. lia.
          -- apply bpow_le. lia.
      + pose proof F as F'. rewrite F2, Fb in F'. cbn [andb] in F'.
        destruct (Bmult mode_NE (d52 2) (d_of_Z (b + 2))); try discriminate; reflexivity. }
  set (a := 2 * (b + 2)). assert (0 <= a < M52) as Ha by (unfold a, M52; lia).
  assert (Z.even a = true) as Ea by (unfold a; rewrite Z.even_mul; reflexivity).
  destruct (ss_step_hom a Ha Ea) as (E1 & R1 & Q1).
  destruct (ss_step_hom _ R1 Q1) as (E2 & R2 & Q2).
  destruct (ss_step_hom _ R2 Q2) as (E3 & R3 & Q3).
  destruct (ss_step_hom _ R3 Q3) as (E4 & R4 & Q4).
  destruct (ss_step_hom _ R4 Q4) as (E5 & R5 & Q5).
  destruct (ss_step_hom _ R5 Q5) as (E6 & R6 & Q6).
  destruct (ss_step_hom _ R6 Q6) as (E7 & R7 & Q7).
  destruct (ss_step_hom _ R7 Q7) as (E8 & R8 & Q8).
  destruct (ss_step_hom _ R8 Q8) as (E9 & _).
  assert (dadd (d52 (zss_step a)) (d52 1) = d52 (Z.succ (zss_step a))) as EA.
  { clear - R1 Q1. apply Z.even_spec in Q1. destruct Q1 as (k & Ek). unfold Z.succ. apply d52_add_small; unfold M52 in *; lia. }
  unfold zseed_start. fold b. fold a. clearbody a.
  cbv -[d52 ss_step d_ulp dadd zss_step Z.succ].
  rewrite E1, E2, E3, E4, E5, E6, E7, E8, E9, ulp_d52, EA. reflexivity.
Qed.

(** ** Shapes: which cells are initialised *)

Definition shape : list (option Z) -> list (option unit) := marr (fun _ => tt).
Definition ums (_ _ : unit) : outcome unit := Ok tt.

Lemma shape_hom : forall a b, ums ((fun _ : Z => tt) a) ((fun _ => tt) b) = omap (fun _ => tt) (zms a b).
Proof. reflexivity. Qed.

Definition full_u : list (option unit) := repeat (Some tt) 19.

Lemma round_shape : forall odd, seed_round ums tt odd full_u = Ok full_u.
Proof. intros [|]; vm_compute; reflexivity. Qed.
Lemma round_shape0 : forall odd, seed_round ums tt odd (repeat (Some tt) 10 ++ repeat None 9) = Ok full_u.
Proof. intros [|]; vm_compute; reflexivity. Qed.

Lemma zround_ok : forall odd u, shape u = full_u \/ shape u = repeat (Some tt) 10 ++ repeat None 9 ->
  exists u', seed_round zms 0 odd u = Ok u' /\ shape u' = full_u.
Proof.
  intros odd u H. pose proof (seed_round_nat zms ums (fun _ => tt) shape_hom 0 odd u) as E.
  cbv beta in E. change (marr (fun _ : Z => tt) u) with (shape u) in E.
  assert (seed_round ums tt odd (shape u) = Ok full_u) as E2
    by (destruct H as [-> | ->]; [apply round_shape|apply round_shape0]).
  rewrite E2 in E. destruct (seed_round zms 0 odd u) as [u'| |]; try discriminate.
  exists u'. split; auto. cbn [omap obind] in E. injection E as E. symmetry. exact E.
Qed.

Lemma seed_loop_ok : forall n k s t u, 0 <= s < 2 ^ Z.of_nat k -> 0 <= t -> (k + Z.to_nat t < n)%nat ->
  shape u = full_u \/ (t <> 0 /\ shape u = repeat (Some tt) 10 ++ repeat None 9) ->
  exists u', seed_loop zms 0 n s t u = Some (Ok u') /\ shape u' = full_u.
Proof.
  induction n; intros k s t u Hs Ht Hn Hu; [lia|].
  cbn [seed_loop]. destruct (Z.eqb_spec t 0).
  { destruct Hu as [Hu|(? & _)]; [|contradiction]. eauto. }
  destruct (zround_ok (Z.odd s) u) as (u' & -> & Su); [tauto|].
  destruct (Z.eqb_spec s 0); cbn [negb].
  - apply (IHn 0%nat); try lia; auto.
  - destruct k; [simpl in Hs; lia|]. apply (IHn k); auto; try lia.
    rewrite Nat2Z.inj_succ, Z.pow_succ_r in Hs by lia. split; [apply Z.div_pos; lia|apply Z.div_lt_upper_bound; lia].
Qed.

(** fuel enough for every seed: 30 bits and 6 squarings *)
Definition SEED_FUEL : nat := 37.

Lemma shape_full : forall n u, shape u = repeat (Some tt) n -> exists l, u = map Some l /\ length l = n.
Proof.
  induction n; intros u H.
  - destruct u; [|discriminate]. exists []. auto.
  - destruct u as [|[z|] u]; try discriminate. injection H as H. destruct (IHn u H) as (l & -> & L).
    exists (z :: l). split; simpl; auto.
Qed.

(** ** The lagged Fibonacci sequence *)

Definition fibw (w : list Z) : list Z := tl w ++ [(nth 0 w 0 + nth 3 w 0) mod M52].
Definition wn (w : list Z) (n : nat) : list Z := Nat.iter n fibw w.
Definition xs (w : list Z) (n : nat) : Z := nth 0 (wn w n) 0.

Lemma wn_len : forall w n, length w = 10%nat -> length (wn w n) = 10%nat.
Proof.
  induction n; intros L; [exact L|]. change (wn w (S n)) with (fibw (wn w n)). unfold fibw.
  rewrite app_length. specialize (IHn L). destruct (wn w n); simpl in *; lia.
Qed.

Lemma wn_S : forall w n, wn w (S n) = fibw (wn w n). Proof. reflexivity. Qed.
Lemma wn_add : forall w a b, wn w (a + b) = wn (wn w b) a.
Proof. intros. unfold wn. induction a; simpl; congruence. Qed.

Lemma wn_nth : forall w i n, length w = 10%nat -> (i < 10)%nat -> nth i (wn w n) 0 = xs w (i + n).
Proof.
  intros w i. induction i; intros n L Hi; [reflexivity|].
  replace (S i + n)%nat with (i + S n)%nat by lia. rewrite <- IHi by lia.
  rewrite wn_S. unfold fibw. pose proof (wn_len w n L) as Ln.
  destruct (wn w n) as [|a l]; [discriminate|]. cbn [tl nth]. rewrite app_nth1; auto. simpl in Ln. lia.
Qed.

Lemma xs_rec : forall w n, length w = 10%nat -> xs w (n + 10) = (xs w n + xs w (n + 3)) mod M52.
Proof.
  intros w n L. replace (n + 10)%nat with (9 + S n)%nat by lia. rewrite <- wn_nth by (auto; lia).
  rewrite wn_S. unfold fibw. pose proof (wn_len w n L) as Ln.
  assert (length (tl (wn w n)) = 9)%nat as Lt by (destruct (wn w n); simpl in *; lia).
  rewrite app_nth2 by lia.
  replace (9 - length (tl (wn w n)))%nat with 0%nat by lia.
  cbn [nth]. rewrite (wn_nth w 3 n) by (auto; lia). rewrite (wn_nth w 0 n) by (auto; lia).
  replace (n + 3)%nat with (3 + n)%nat by lia. reflexivity.
Qed.

(** ** get_array walks along the sequence *)

Lemma rd_some : forall A (l : list (option A)) i a, 0 <= i -> nth_error l (Z.to_nat i) = Some (Some a) -> rd l i = Ok a.
Proof. intros. unfold rd. destruct (Z.ltb_spec i 0); [lia|]. rewrite H0. reflexivity. Qed.
Lemma wr_ok : forall A (l : list (option A)) i a, 0 <= i < Z.of_nat (length l) -> wr l i a = Ok (upd l (Z.to_nat i) (Some a)).
Proof.
  intros. unfold wr. destruct (Z.leb_spec 0 i); [|lia]. destruct (Z.ltb_spec i (Z.of_nat (length l))); [|lia]. reflexivity.
Qed.
Lemma nth_error_upd : forall A (l : list A) n m v, (n < length l)%nat ->
  nth_error (upd l n v) m = if Nat.eqb n m then Some v else nth_error l m.
Proof.
  induction l; intros [|n] [|m] v H; simpl in *; try lia; auto. apply IHl. lia.
Qed.

(** one counting loop that fills cell [j] with the value [f j] *)
Lemma fill_loop : forall A (step : list (option A) -> Z -> outcome (list (option A))) (f : Z -> A) n lo l,
  0 <= lo -> lo + Z.of_nat n <= Z.of_nat (length l) ->
  (forall l' j, length l' = length l -> lo <= j < lo + Z.of_nat n ->
     (forall i, 0 <= i -> nth_error l' (Z.to_nat i) =
        if (lo <=? i) && (i <? j) then Some (Some (f i)) else nth_error l (Z.to_nat i)) ->
     step l' j = wr l' j (f j)) ->
  exists l', ofold step (zrange lo n) l = Ok l' /\ length l' = length l /\
    forall i, 0 <= i -> nth_error l' (Z.to_nat i) =
      if (lo <=? i) && (i <? lo + Z.of_nat n) then Some (Some (f i)) else nth_error l (Z.to_nat i).
Proof.
  intros A step f n. induction n as [|n IH]; intros lo l Hlo Hl H.
  - exists l. split; [reflexivity|]. split; auto. intros i Hi.
    destruct (Z.leb_spec lo i), (Z.ltb_spec i (lo + Z.of_nat 0)); auto. lia.
  - assert (zrange lo (S n) = zrange lo n ++ [lo + Z.of_nat n]) as E.
    { unfold zrange. rewrite seq_S, map_app. reflexivity. }
    destruct (IH lo l Hlo) as (l1 & E1 & L1 & N1); [lia| |].
    { intros l' j Ll Hj Hn. apply H; auto. lia. }
    rewrite E, ofold_app, E1. cbn [obind ofold].
    assert (step l1 (lo + Z.of_nat n) = Ok (upd l1 (Z.to_nat (lo + Z.of_nat n)) (Some (f (lo + Z.of_nat n))))) as Es.
    { rewrite H; auto; [|lia]. apply wr_ok. lia. }
    rewrite Es. cbn [obind]. eexists. split; [reflexivity|]. split; [rewrite upd_length; auto|].
    intros i Hi. rewrite nth_error_upd by lia.
    destruct (Nat.eqb_spec (Z.to_nat (lo + Z.of_nat n)) (Z.to_nat i)) as [X|X].
    + assert (i = lo + Z.of_nat n) by lia. subst i.
      destruct (Z.leb_spec lo (lo + Z.of_nat n)); [|lia].
      destruct (Z.ltb_spec (lo + Z.of_nat n) (lo + Z.of_nat (S n))); [|lia]. reflexivity.
    + rewrite N1 by auto. destruct (Z.leb_spec lo i), (Z.ltb_spec i (lo + Z.of_nat n)), (Z.ltb_spec i (lo + Z.of_nat (S n)));
        cbn [andb]; auto; lia.
Qed.

Definition win {A} (x : nat -> A) (p : nat) : list (option A) := map (fun i => Some (x i)) (seq p 10).
Lemma win_len : forall A (x : nat -> A) p, length (win x p) = 10%nat.
Proof. intros. unfold win. rewrite map_length, seq_length. reflexivity. Qed.
Lemma win_nth : forall A (x : nat -> A) p i, (i < 10)%nat -> nth_error (win x p) i = Some (Some (x (p + i)%nat)).
Proof.
  intros. unfold win. rewrite nth_error_map, (nth_error_nth' _ 0%nat) by (rewrite seq_length; lia).
  rewrite seq_nth by lia. reflexivity.
Qed.

Lemma nth_error_ext : forall A (l1 l2 : list A), (forall k, nth_error l1 k = nth_error l2 k) -> l1 = l2.
Proof.
  induction l1; intros [|b l2] H; auto.
  - specialize (H 0%nat). discriminate.
  - specialize (H 0%nat). discriminate.
  - f_equal; [specialize (H 0%nat); simpl in H; congruence|]. apply IHl1. intros k. apply (H (S k)).
Qed.

(** get_array copies the sequence [x] from position [p] on and moves the state
    forward by the number of elements produced *)
Lemma get_array_seq : forall A (ms : A -> A -> outcome A) (x : nat -> A),
  (forall k, ms (x k) (x (k + 3)%nat) = Ok (x (k + 10)%nat)) ->
  forall p aa n, Z.max 10 n <= Z.of_nat (length aa) ->
  exists aa', get_array ms (win x p) aa n = Ok (win x (p + Z.to_nat (Z.max 10 n)), aa') /\
    length aa' = length aa /\
    forall i, 0 <= i -> nth_error aa' (Z.to_nat i) =
      if i <? Z.max 10 n then Some (Some (x (p + Z.to_nat i)%nat)) else nth_error aa (Z.to_nat i).
Proof.
  intros A ms x Hx p aa n La. unfold get_array. change KK with 10. change LL with 7. cbv zeta.
  change (Z.to_nat 10) with 10%nat. change (Z.to_nat 7) with 7%nat. change (Z.to_nat (10 - 7)) with 3%nat.
  set (m := Z.max 10 n) in *.
  assert (Hxp : forall i, 10 <= i -> ms (x (p + Z.to_nat (i - 10))%nat) (x (p + Z.to_nat (i - 7))%nat) = Ok (x (p + Z.to_nat i)%nat)).
  { intros i Hi. replace (p + Z.to_nat i)%nat with ((p + Z.to_nat (i - 10)) + 10)%nat by lia. rewrite <- Hx.
    do 2 f_equal. lia. }
  (* copy *)
  destruct (fill_loop A (fun aa j => let* v := rd (win x p) j in wr aa j v) (fun j => x (p + Z.to_nat j)%nat) 10 0 aa)
    as (a1 & E1 & L1 & N1); [lia|lia| |].
  { intros l' j _ Hj _. rewrite (rd_some _ _ _ (x (p + Z.to_nat j)%nat)); [reflexivity|lia|].
    apply win_nth. lia. }
  rewrite E1. cbn [obind].
  (* extend *)
  destruct (fill_loop A (fun aa j => let* a := rd aa (j - 10) in let* b := rd aa (j - 7) in let* v := ms a b in wr aa j v)
              (fun j => x (p + Z.to_nat j)%nat) (Z.to_nat (n - 10)) 10 a1) as (a2 & E2 & L2 & N2); [lia|lia| |].
  { intros l' j Ll Hj Hn.
    assert (forall i, 0 <= i < j -> rd l' i = Ok (x (p + Z.to_nat i)%nat)) as R.
    { intros i Hi. apply rd_some; [lia|]. rewrite Hn by lia. destruct (Z.leb_spec 10 i); cbn [andb].
      - destruct (Z.ltb_spec i j); [reflexivity|lia].
      - rewrite N1 by lia. destruct (Z.leb_spec 0 i); [|lia].
        destruct (Z.ltb_spec i (0 + Z.of_nat 10)); [|lia]. reflexivity. }
    rewrite !R by lia. cbn [obind]. rewrite Hxp by lia. reflexivity. }
  rewrite E2. cbn [obind].
  assert (RA : forall i, 0 <= i < m -> rd a2 i = Ok (x (p + Z.to_nat i)%nat)).
  { intros i Hi. apply rd_some; [lia|]. rewrite N2 by lia. destruct (Z.leb_spec 10 i); cbn [andb].
    - destruct (Z.ltb_spec i (10 + Z.of_nat (Z.to_nat (n - 10)))); [reflexivity|lia].
    - rewrite N1 by lia. destruct (Z.leb_spec 0 i); [|lia].
      destruct (Z.ltb_spec i (0 + Z.of_nat 10)); [|lia]. reflexivity. }
  pose proof (win_len A x p) as LS.
  (* refill the state *)
  destruct (fill_loop A (fun u i => let* a := rd a2 (m + i - 10) in let* b := rd a2 (m + i - 7) in let* v := ms a b in wr u i v)
              (fun i => x (p + Z.to_nat (m + i))%nat) 7 0 (win x p)) as (u1 & E3 & L3 & N3); [lia|lia| |].
  { intros l' j Ll Hj Hn. rewrite !RA by lia. cbn [obind]. rewrite Hxp by lia. reflexivity. }
  rewrite E3. cbn [obind].
  destruct (fill_loop A (fun u i => let* a := rd a2 (m + i - 10) in let* b := rd u (i - 7) in let* v := ms a b in wr u i v)
              (fun i => x (p + Z.to_nat (m + i))%nat) 3 7 u1) as (u2 & E4 & L4 & N4); [lia|lia| |].
  { intros l' j Ll Hj Hn. rewrite !RA by lia. cbn [obind].
    rewrite (rd_some _ l' (j - 7) (x (p + Z.to_nat (m + (j - 7)))%nat)); [|lia|].
    - cbn [obind]. replace (m + (j - 7)) with (m + j - 7) by lia. rewrite Hxp by lia. reflexivity.
    - rewrite Hn by lia. destruct (Z.leb_spec 7 (j - 7)); [lia|]. cbn [andb]. rewrite N3 by lia.
      destruct (Z.leb_spec 0 (j - 7)); [|lia]. destruct (Z.ltb_spec (j - 7) (0 + Z.of_nat 7)); [|lia]. reflexivity. }
  rewrite E4. cbn [obind].
  exists a2. split; [|split].
  - do 2 f_equal. apply nth_error_ext. intros k.
    destruct (Nat.lt_ge_cases k 10) as [Hk|Hk].
    + rewrite win_nth by auto.
      replace k with (Z.to_nat (Z.of_nat k)) at 1 by lia. rewrite N4 by lia.
      assert (p + Z.to_nat (m + Z.of_nat k) = p + Z.to_nat m + k)%nat as Q by lia.
      destruct (Z.leb_spec 7 (Z.of_nat k)); cbn [andb].
      * destruct (Z.ltb_spec (Z.of_nat k) (7 + Z.of_nat 3)); [|lia]. rewrite Q. reflexivity.
      * rewrite N3 by lia. destruct (Z.leb_spec 0 (Z.of_nat k)); [|lia].
        destruct (Z.ltb_spec (Z.of_nat k) (0 + Z.of_nat 7)); [|lia]. rewrite Q. reflexivity.
    + rewrite (proj2 (nth_error_None u2 k)) by lia. symmetry. apply nth_error_None. rewrite win_len. auto.
  - lia.
  - intros i Hi. rewrite N2 by auto. rewrite N1 by auto.
    destruct (Z.ltb_spec i m), (Z.leb_spec 10 i), (Z.ltb_spec i (10 + Z.of_nat (Z.to_nat (n - 10)))),
      (Z.leb_spec 0 i), (Z.ltb_spec i (0 + Z.of_nat 10)); cbn [andb]; auto; lia.
Qed.

(** ** The seeded generator *)

Definition xd (w : list Z) (k : nat) : f64 := d52 (xs w k).

Lemma zms_xs : forall w, length w = 10%nat -> forall k, zms (xs w k) (xs w (k + 3)) = Ok (xs w (k + 10)).
Proof. intros. unfold zms. rewrite xs_rec by auto. reflexivity. Qed.
Lemma ms_xd : forall w, length w = 10%nat -> forall k, mod_sum (xd w k) (xd w (k + 3)) = Ok (xd w (k + 10)).
Proof. intros. unfold xd. rewrite mod_sum_hom, zms_xs by auto. reflexivity. Qed.

Lemma win_xs : forall w, length w = 10%nat -> win (xs w) 0 = map Some w.
Proof.
  intros w L. apply nth_error_ext. intros k. destruct (Nat.lt_ge_cases k 10).
  - rewrite win_nth by auto. rewrite nth_error_map, (nth_error_nth' w 0) by lia. cbn [option_map].
    do 2 f_equal. pose proof (wn_nth w k 0 L H) as E. cbn [wn Nat.iter nat_rect] in E. rewrite E. f_equal. lia.
  - rewrite (proj2 (nth_error_None _ k)) by (rewrite win_len; auto).
    symmetry. apply nth_error_None. rewrite map_length; lia.
Qed.
Lemma marr_win : forall w, length w = 10%nat -> marr d52 (map Some w) = win (xd w) 0.
Proof.
  intros w L. rewrite <- win_xs by auto. unfold marr, win. rewrite map_map. reflexivity.
Qed.

Lemma seed_loop_more : forall A (ms : A -> A -> outcome A) z n m s t u r, (n <= m)%nat ->
  seed_loop ms z n s t u = Some r -> seed_loop ms z m s t u = Some r.
Proof.
  intros A ms z n. induction n; intros m s t u r Hm H.
  - destruct m; cbn [seed_loop] in *; destruct (t =? 0); auto; discriminate.
  - destruct m; [lia|]. cbn [seed_loop] in *. destruct (t =? 0); auto.
    destruct (seed_round ms z (Z.odd s) u); auto. destruct (negb (s =? 0)); apply IHn; auto; lia.
Qed.

(** ** Drawing *)

Definition dpos (k : nat) : nat := (19 * (k / 10) + k mod 10)%nat.

Definition drawn (w : list Z) (k : nat) (g : rng) : Prop :=
  length (rng_buf g) = 19%nat /\
  ((k = 0%nat /\ rng_pos g = AtConst /\ ran_u g = win (xd w) 0) \/
   (exists q r, (k = 10 * q + r)%nat /\ (1 <= r <= 10)%nat /\ ran_u g = win (xd w) (19 * (q + 1)) /\
      rng_pos g = AtBuf (Z.of_nat r) /\
      (forall i, (i < 10)%nat -> nth_error (rng_buf g) i = Some (Some (xd w (19 * q + i)))) /\
      nth_error (rng_buf g) 10 = Some (Some (d_of_Z (-1))))).

Lemma dle_xd : forall a, dle d0 (d52 a) = true.
Proof.
  intros. destruct (d52_val a) as (V & F). rewrite d0_d52. destruct (d52_val 0) as (V0 & F0).
  unfold dle. rewrite Bleb_correct by auto. rewrite V, V0. apply Rle_bool_true.
  change (0 mod M52) with 0. unfold v52 at 1. rewrite Rmult_0_l.
  pose proof (v52_lt1 (a mod M52) (mod_range a)). lra.
Qed.
Lemma dle_m1 : dle d0 (d_of_Z (-1)) = false.
Proof.
  destruct (d_of_Z_exact (-1)) as (V & F); [lia|]. unfold d0. destruct (d_of_Z_exact 0) as (V0 & F0); [lia|].
  unfold dle. rewrite Bleb_correct by auto. rewrite V, V0. apply Rle_bool_false. lra.
Qed.

Lemma cycle_ok : forall w g q, length w = 10%nat -> length (rng_buf g) = 19%nat -> ran_u g = win (xd w) (19 * q) ->
  exists g', rng_cycle g = Ok (xd w (19 * q), g') /\ drawn w (10 * q + 1) g'.
Proof.
  intros w g q L Lb E. unfold rng_cycle. rewrite E. change QUALITY with 19.
  destruct (get_array_seq f64 mod_sum (xd w) (ms_xd w L) (19 * q) (rng_buf g) 19) as (b & -> & Lb' & N); [lia|].
  cbn [obind]. change KK with 10. rewrite wr_ok by lia. cbn [obind].
  change (Z.to_nat 10) with 10%nat. change (Z.to_nat (Z.max 10 19)) with 19%nat.
  assert (forall i, (i < 19)%nat -> nth_error b i = Some (Some (xd w (19 * q + i)))) as N'.
  { intros i Hi. replace i with (Z.to_nat (Z.of_nat i)) at 1 by lia. rewrite N by lia.
    destruct (Z.ltb_spec (Z.of_nat i) (Z.max 10 19)); [|lia]. rewrite Nat2Z.id. reflexivity. }
  rewrite (rd_some _ _ 0 (xd w (19 * q))); [|lia|].
  2:{ change (Z.to_nat 0) with 0%nat. rewrite nth_error_upd by lia. cbn [Nat.eqb]. rewrite N' by lia. do 3 f_equal. lia. }
  cbn [obind]. eexists. split; [reflexivity|]. split; [cbn [rng_buf]; rewrite upd_length; lia|].
  right. exists q, 1%nat. cbn [rng_buf ran_u rng_pos]. split; [lia|]. split; [lia|]. split; [f_equal; lia|].
  split; [reflexivity|]. split.
  - intros i Hi. rewrite nth_error_upd by lia. destruct (Nat.eqb_spec 10 i); [lia|]. apply N'. lia.
  - rewrite nth_error_upd by lia. reflexivity.
Qed.

Lemma next_ok : forall w k g, length w = 10%nat -> drawn w k g ->
  exists g', rng_next g = Ok (xd w (dpos k), g') /\ drawn w (S k) g'.
Proof.
  intros w k g L (Lb & [(-> & P & E)|(q & r & -> & Hr & E & P & B & S)]).
  - unfold rng_next. rewrite P. destruct (cycle_ok w g 0 L Lb E) as (g' & -> & D). exists g'. auto.
  - unfold rng_next. rewrite P. destruct (Nat.eq_dec r 10) as [->|Nr].
    + rewrite (rd_some _ _ (Z.of_nat 10) _ ltac:(lia) S). cbn [obind]. rewrite dle_m1.
      destruct (cycle_ok w g (q + 1) L Lb E) as (g' & -> & D). exists g'. split.
      * assert (dpos (10 * q + 10) = 19 * (q + 1))%nat as ->; [|reflexivity].
        unfold dpos. replace (10 * q + 10)%nat with ((q + 1) * 10)%nat by lia.
        rewrite Nat.div_mul, Nat.mod_mul by lia. lia.
      * replace (Datatypes.S (10 * q + 10)) with (10 * (q + 1) + 1)%nat by lia. exact D.
    + assert (nth_error (rng_buf g) (Z.to_nat (Z.of_nat r)) = Some (Some (xd w (19 * q + r)))) as N
        by (rewrite Nat2Z.id; apply B; lia).
      rewrite (rd_some _ _ (Z.of_nat r) _ ltac:(lia) N). cbn [obind]. unfold xd at 1. rewrite dle_xd.
      eexists. split.
      * assert (dpos (10 * q + r) = 19 * q + r)%nat as ->; [|reflexivity].
        unfold dpos. replace (10 * q + r)%nat with (r + q * 10)%nat by lia.
        rewrite Nat.div_add, Nat.mod_add by lia. rewrite Nat.div_small, Nat.mod_small by lia. lia.
      * split; [exact Lb|]. right. exists q, (r + 1)%nat. cbn [rng_buf ran_u rng_pos].
        split; [lia|]. split; [lia|]. split; [auto|]. split; [f_equal; lia|]. auto.
Qed.

Fixpoint draws (n : nat) (g : rng) : outcome (list f64 * rng) :=
  match n with
  | O => Ok ([], g)
  | S n => let* (v, g) := rng_next g in let* (l, g) := draws n g in Ok (v :: l, g)
  end.

Lemma draws_ok : forall w n k g, length w = 10%nat -> drawn w k g ->
  exists g', draws n g = Ok (map (fun i => xd w (dpos (k + i))) (seq 0 n), g') /\ drawn w (k + n) g'.
Proof.
  intros w n. induction n; intros k g L D.
  - exists g. rewrite Nat.add_0_r. auto.
  - cbn [draws]. destruct (next_ok w k g L D) as (g1 & -> & D1). cbn [obind].
    destruct (IHn (S k) g1 L D1) as (g2 & -> & D2). cbn [obind]. exists g2. split.
    + cbn [seq map]. rewrite Nat.add_0_r, <- seq_shift, map_map.
      rewrite (map_ext (fun i => xd w (dpos (k + S i))) (fun i => xd w (dpos (S k + i)))); [reflexivity|].
      intros i. f_equal. f_equal. lia.
    + replace (k + S n)%nat with (S k + n)%nat by lia. auto.
Qed.

Lemma xs_range : forall w n, length w = 10%nat -> Forall (fun a => 0 <= a < M52) w -> 0 <= xs w n < M52.
Proof.
  intros w n L F. unfold xs.
  assert (Forall (fun a => 0 <= a < M52) (wn w n)) as G.
  { induction n; [exact F|]. rewrite wn_S. unfold fibw. apply Forall_app. split.
    - destruct (wn w n); [constructor|]. inversion IHn; auto.
    - constructor; [apply mod_range|constructor]. }
  pose proof (wn_len w n L). destruct (wn w n); [discriminate|]. inversion G; auto.
Qed.

(** ** Parity *)

Definition bms (a b : bool) : outcome bool := Ok (xorb a b).
Lemma odd_mod : forall a, Z.odd (a mod M52) = Z.odd a.
Proof.
  intros. rewrite (Z.div_mod a M52) at 2 by discriminate. rewrite Z.odd_add, Z.odd_mul.
  change (Z.odd M52) with false. cbn [andb xorb]. destruct (Z.odd (a mod M52)); reflexivity.
Qed.
Lemma parity_hom : forall a b, bms (Z.odd a) (Z.odd b) = omap Z.odd (zms a b).
Proof. intros. unfold bms, zms, omap. cbn [obind]. rewrite odd_mod, Z.odd_add. reflexivity. Qed.

Fixpoint bits (n : nat) : list (list bool) :=
  match n with O => [[]] | S n => map (cons true) (bits n) ++ map (cons false) (bits n) end.
Lemma in_bits : forall l, In l (bits (length l)).
Proof.
  induction l as [|[|] l]; simpl; auto; apply in_or_app; [left|right]; apply in_map; auto.
Qed.

Definition nonzero (l : list bool) : bool := existsb (fun b => b) l.
Definition somes (u : list (option bool)) : list bool := map (fun c => match c with Some b => b | None => false end) u.

Lemma square_tail : forall (l : list bool) t1 t2, length l = 10%nat -> length t1 = 9%nat -> length t2 = 9%nat ->
  seed_square false (map Some l ++ t1) = seed_square false (map Some l ++ t2).
Proof.
  intros l t1 t2 L L1 L2.
  do 11 (destruct l as [|? l]; try discriminate).
  do 10 (destruct t1 as [|? t1]; try discriminate). do 10 (destruct t2 as [|? t2]; try discriminate).
  vm_compute. reflexivity.
Qed.

Lemma round_tail : forall l t odd, length l = 10%nat -> length t = 9%nat ->
  seed_round bms false odd (map Some l ++ t) = seed_round bms false odd (map Some l ++ repeat None 9).
Proof.
  intros l t odd L Lt. unfold seed_round. rewrite (square_tail l t (repeat None 9) L Lt eq_refl). reflexivity.
Qed.

Definition round_good (l : list bool) (odd : bool) : bool :=
  match seed_round bms false odd (map Some l ++ repeat None 9) with
  | Ok u => nonzero (somes (firstn 10 u)) | _ => false end.
Lemma round_keeps_ok : forall l, In l (bits 10) -> negb (nonzero l) || (round_good l true && round_good l false) = true.
Proof. apply forallb_forall. vm_compute. reflexivity. Qed.

Lemma round_good_all : forall l odd, length l = 10%nat -> nonzero l = true -> round_good l odd = true.
Proof.
  intros l odd L Nz. pose proof (in_bits l) as I. rewrite L in I. clear L.
  apply round_keeps_ok in I. rewrite Nz in I. cbn [negb orb] in I. apply andb_prop in I. destruct odd; apply I.
Qed.

Lemma bround : forall l t odd, length l = 10%nat -> length t = 9%nat -> nonzero l = true ->
  exists u, seed_round bms false odd (map Some l ++ t) = Ok u /\ nonzero (somes (firstn 10 u)) = true.
Proof.
  intros l t odd L Lt Nz. rewrite round_tail by auto.
  pose proof (round_good_all l odd L Nz) as G. unfold round_good in G.
  destruct (seed_round bms false odd (map Some l ++ repeat None 9)) as [u| |]; try discriminate. eauto.
Qed.

(** some of the first ten cells is odd *)
Definition some_odd (u : list (option Z)) : Prop :=
  exists l t, marr Z.odd u = map Some l ++ t /\ length l = 10%nat /\ length t = 9%nat /\ nonzero l = true.

Lemma full_split : forall (u : list (option Z)), shape u = full_u -> nonzero (somes (firstn 10 (marr Z.odd u))) = true ->
  some_odd u.
Proof.
  intros u S N. destruct (shape_full 19 u S) as (l & -> & L).
  exists (map Z.odd (firstn 10 l)), (map Some (map Z.odd (skipn 10 l))).
  split; [|split; [|split]].
  - unfold marr. rewrite <- map_app, <- map_app, firstn_skipn, !map_map. reflexivity.
  - rewrite map_length, firstn_length. lia.
  - rewrite !map_length, skipn_length. lia.
  - rewrite <- N. f_equal. unfold marr, somes. rewrite firstn_map, firstn_map, !map_map. reflexivity.
Qed.

Lemma zround_odd : forall odd u u', some_odd u -> seed_round zms 0 odd u = Ok u' -> shape u' = full_u -> some_odd u'.
Proof.
  intros odd u u' (l & t & E & L & Lt & N) R S. apply full_split; auto.
  pose proof (seed_round_nat zms bms Z.odd parity_hom 0 odd u) as H. rewrite E, R in H.
  change (Z.odd 0) with false in H.
  destruct (bround l t odd L Lt N) as (v & Ev & Nv). rewrite Ev in H. cbn [omap obind] in H. injection H as <-. exact Nv.
Qed.

Lemma seed_loop_odd : forall n k s t u, 0 <= s < 2 ^ Z.of_nat k -> 0 <= t -> (k + Z.to_nat t < n)%nat ->
  shape u = full_u \/ (t <> 0 /\ shape u = repeat (Some tt) 10 ++ repeat None 9) -> some_odd u ->
  exists u', seed_loop zms 0 n s t u = Some (Ok u') /\ shape u' = full_u /\ some_odd u'.
Proof.
  induction n; intros k s t u Hs Ht Hn Hu Ho; [lia|].
  cbn [seed_loop]. destruct (Z.eqb_spec t 0).
  { destruct Hu as [Hu|(? & _)]; [|contradiction]. eauto. }
  destruct (zround_ok (Z.odd s) u) as (u' & Er & Su); [tauto|]. pose proof (zround_odd _ _ _ Ho Er Su). rewrite Er.
  destruct (Z.eqb_spec s 0); cbn [negb].
  - apply (IHn 0%nat); try lia; auto.
  - destruct k; [simpl in Hs; lia|]. apply (IHn k); auto; try lia.
    rewrite Nat2Z.inj_succ, Z.pow_succ_r in Hs by lia. split; [apply Z.div_pos; lia|apply Z.div_lt_upper_bound; lia].
Qed.

Lemma start_odd : forall seed, some_odd (zseed_start seed).
Proof.
  intros. unfold zseed_start. pose proof (seed_bits_range seed).
  set (a := 2 * (seed_bits seed + 2)).
  assert (0 <= a < M52) as Ha by (unfold a, M52; lia).
  assert (Z.even a = true) as Ea by (unfold a; rewrite Z.even_mul; reflexivity).
  pose proof (zss_ok 10 a Ha Ea) as F.
  assert (length (zss 10 a) = 10%nat) as L by reflexivity.
  set (l := zss 10 a) in *. clearbody l. do 11 (destruct l as [|? l]; try discriminate).
  exists (map Z.odd (upd [z; z0; z1; z2; z3; z4; z5; z6; z7; z8] 1 (Z.succ z0))), (repeat None 9).
  split; [reflexivity|]. split; [reflexivity|]. split; [reflexivity|].
  cbn [upd map nonzero existsb]. inversion F as [|? ? _ F2]; subst. inversion F2 as [|? ? (_ & E) _]; subst.
  rewrite Z.odd_succ, E. rewrite orb_true_r. reflexivity.
Qed.

(** the warm-up moves along the sequence *)
Lemma warm_seq : forall A (ms : A -> A -> outcome A) (x : nat -> A),
  (forall k, ms (x k) (x (k + 3)%nat) = Ok (x (k + 10)%nat)) ->
  forall (l : list Z) p aa, length aa = 19%nat ->
  exists aa', ofold (fun st _ => get_array ms (fst st) (snd st) (KK + KK - 1)) l (win x p, aa)
    = Ok (win x (p + 19 * length l), aa').
Proof.
  intros A ms x Hx l. induction l; intros p aa L.
  - exists aa. cbn [ofold length]. do 3 f_equal. lia.
  - cbn [ofold fst snd]. destruct (get_array_seq A ms x Hx p aa (KK + KK - 1)) as (a1 & E & L1 & _).
    { rewrite L. vm_compute. discriminate. }
    rewrite E. cbn [obind]. destruct (IHl (p + Z.to_nat (Z.max 10 (KK + KK - 1)))%nat a1) as (a2 & E2); [lia|].
    rewrite E2. exists a2. do 3 f_equal. change (Z.to_nat (Z.max 10 (KK + KK - 1))) with 19%nat. cbn [length]. lia.
Qed.

Lemma seed_copy_any : forall (r : list (option Z)) (l : list Z), length r = 10%nat -> length l = 19%nat ->
  seed_copy r (map Some l) = Ok (map Some (firstn 3 (skipn 7 l) ++ firstn 7 l)).
Proof.
  intros r l Lr L. do 20 (destruct l as [|? l]; try discriminate). do 11 (destruct r as [|? r]; try discriminate).
  reflexivity.
Qed.

(** odd somewhere in the window, for ever *)
Definition odd_from (w : list Z) (n : nat) : Prop := exists i, (i < 10)%nat /\ Z.odd (xs w (n + i)) = true.

Lemma odd_forever : forall w, length w = 10%nat -> odd_from w 0 -> forall n, odd_from w n.
Proof.
  intros w L H n. induction n; auto. destruct IHn as (i & Hi & O).
  destruct i as [|i].
  - rewrite Nat.add_0_r in O. destruct (Z.odd (xs w (n + 3))) eqn:O3.
    + exists 2%nat. split; [lia|]. rewrite <- O3. do 2 f_equal. lia.
    + exists 9%nat. split; [lia|]. replace (S n + 9)%nat with (n + 10)%nat by lia. rewrite xs_rec by auto.
      rewrite odd_mod, Z.odd_add, O, O3. reflexivity.
  - exists i. split; [lia|]. rewrite <- O. do 2 f_equal. lia.
Qed.

Lemma firstn_7_3 : forall (l : list Z), firstn 7 l ++ firstn 3 (skipn 7 l) = firstn 10 l.
Proof. intros. do 7 (destruct l as [|? l]; [reflexivity|]). reflexivity. Qed.
Lemma map_Some_inj : forall (A : Type) (a b : list A), map Some a = map Some b -> a = b.
Proof. induction a; intros [|b0 b] H; try discriminate; auto. injection H as -> H. f_equal. auto. Qed.

(** everything about the seeded state *)
Lemma seeded : forall seed, exists w, length w = 10%nat /\ Forall (fun a => 0 <= a < M52) w /\
  (forall n, odd_from w n) /\
  forall g r, ran_u g = marr d52 r -> shape r = repeat None 10 \/ shape r = repeat (Some tt) 10 ->
  forall fuel, (SEED_FUEL <= fuel)%nat ->
    rng_set_seed fuel g seed = Some (Ok (mkRng (win (xd w) 0) (rng_buf g) AtConst)).
Proof.
  intros seed.
  destruct (seed_loop_odd SEED_FUEL 30 (seed_bits seed) (TT - 1) (zseed_start seed)) as (u & Eu & Su & Ou).
  - pose proof (seed_bits_range seed). change (2 ^ Z.of_nat 30) with 1073741824. lia.
  - vm_compute. discriminate.
  - vm_compute. lia.
  - right. split; [discriminate|]. unfold zseed_start. cbn [zss upd map shape marr option_map app repeat]. reflexivity.
  - apply start_odd.
  - destruct (shape_full 19 u Su) as (l & -> & L).
    set (w0 := firstn 3 (skipn 7 l) ++ firstn 7 l).
    assert (length w0 = 10%nat) as L0.
    { unfold w0. rewrite app_length, !firstn_length, skipn_length. lia. }
    assert (Fin : forall r, length r = 10%nat -> seed_finish zms r (map Some l) = Ok (map Some (wn w0 190))).
    { intros r Lr. unfold seed_finish. rewrite seed_copy_any by auto. fold w0. cbn [obind].
      rewrite <- (win_xs w0) by auto.
      destruct (warm_seq Z zms (xs w0) (zms_xs w0 L0) (zrange 0 10) 0 (map Some l)) as (a & E); [rewrite map_length; auto|].
      rewrite E. cbn [obind]. f_equal. rewrite zrange_length. change (0 + 19 * 10)%nat with 190%nat.
      apply nth_error_ext. intros k. destruct (Nat.lt_ge_cases k 10).
      - rewrite win_nth by auto. rewrite nth_error_map, (nth_error_nth' _ 0) by (rewrite wn_len; auto).
        cbn [option_map]. rewrite wn_nth by auto. do 3 f_equal. lia.
      - rewrite (proj2 (nth_error_None _ k)) by (rewrite win_len; auto).
        symmetry. apply nth_error_None. rewrite map_length, wn_len; auto. }
    assert (O0 : odd_from w0 0).
    { destruct Ou as (bl & t & E & Lb & _ & N). unfold marr in E. rewrite map_map in E.
      assert (map Z.odd (firstn 10 l) = bl) as Eb.
      { assert (firstn 10 (map (fun x => option_map Z.odd (Some x)) l) = firstn 10 (map Some bl ++ t)) as E1 by congruence.
        rewrite firstn_app, map_length, Lb, Nat.sub_diag, firstn_O, app_nil_r in E1.
        rewrite (firstn_all2 (map Some bl)) in E1 by (rewrite map_length; lia).
        rewrite firstn_map in E1. cbn [option_map] in E1.
        rewrite <- (map_map Z.odd Some) in E1.
        apply map_Some_inj in E1. exact E1. }
      unfold nonzero in N. rewrite <- Eb in N. apply existsb_exists in N. destruct N as (b & Ib & ->).
      apply in_map_iff in Ib. destruct Ib as (z & Oz & Iz).
      assert (In z w0) as Iw.
      { unfold w0. rewrite <- firstn_7_3 in Iz. apply in_app_or in Iz. apply in_or_app. tauto. }
      apply (In_nth _ _ 0) in Iw. destruct Iw as (i & Hi & Ei). exists i. split; [lia|].
      pose proof (wn_nth w0 i 0 L0 ltac:(lia)) as Q. cbn [wn Nat.iter nat_rect] in Q.
      rewrite Nat.add_0_r in Q. cbn [Nat.add]. rewrite <- Q, Ei. exact Oz. }
    exists (wn w0 190). split; [apply wn_len; auto|]. split; [|split].
    + (* every element has been reduced by the warm-up *)
      apply Forall_forall. intros a Ia. apply (In_nth _ _ 0) in Ia. destruct Ia as (i & Hi & <-).
      rewrite wn_len in Hi by auto. rewrite wn_nth by auto.
      replace (i + 190)%nat with (i + 180 + 10)%nat by lia. rewrite xs_rec by auto. apply mod_range.
    + intros n. destruct (odd_forever w0 L0 O0 (190 + n)) as (i & Hi & O). exists i. split; auto.
      rewrite <- O. f_equal. unfold xs. rewrite <- wn_add. f_equal. f_equal. lia.
    + intros g r Hg Hr fuel Hf. unfold rng_set_seed. rewrite seed_start_hom, d0_d52.
      rewrite (seed_loop_nat zms mod_sum d52 mod_sum_hom).
      rewrite (seed_loop_more _ _ _ _ _ _ _ _ _ Hf Eu). cbn [option_map omap obind].
      rewrite Hg, (seed_finish_nat zms mod_sum d52 mod_sum_hom), Fin. cbn [omap obind].
      * rewrite marr_win by (apply wn_len; auto). reflexivity.
      * assert (length (shape r) = 10%nat) as Ls by (destruct Hr as [-> | ->]; reflexivity).
        unfold shape, marr in Ls. rewrite map_length in Ls. exact Ls.
Qed.
