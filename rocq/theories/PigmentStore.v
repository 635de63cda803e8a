(** Storing the mixed colour: brushmodes.c 123, 325-331, 401, 482 *)
From Verif Require Import Base F32 F32Proofs Arith Color Spectral Blend OpaProofs RrProofs Paint PaintProofs P_Spectral PigmentLog PigmentPow PigmentMix.
From Coq Require Import Reals Lra.
From Flocq Require Import Core.Core IEEE754.BinarySingleNaN.
Local Open Scope R_scope.

Lemma trunc_near : forall r, 0 <= r -> r - 1 <= IZR (Ztrunc r) <= r.
Proof. intros r H. rewrite Ztrunc_floor by exact H. pose proof (Zfloor_lb r). pose proof (Zfloor_ub r). lra. Qed.

Lemma trunc_any : forall r, IZR (Ztrunc r) - 1 <= r <= IZR (Ztrunc r) + 1.
Proof.
  intros r. destruct (Rle_lt_dec 0 r) as [H|H].
  - pose proof (trunc_near r H). lra.
  - rewrite Ztrunc_ceil by lra. pose proof (Zceil_ub r). pose proof (Zceil_lb r). lra.
Qed.

Lemma store_close : forall x X a v, iv 0 x 1 -> ap x X (9 / 10000) -> (0 <= a <= 32768)%Z -> paint_store x a = Ok v ->
  Rabs (IZR v - IZR a * X) <= 9 / 10000 * IZR a + 51 / 100.
Proof.
  intros x X a v (Fx & Hx) (_ & Ex) Ha E. unfold paint_store in E.
  assert (0 <= IZR a <= 32768) as A by (split; apply IZR_le; lia).
  destruct (f_of_Z_exact a ltac:(lia)) as (Va & Fa).
  assert (0 <= b2r x * IZR a <= 1 * 32768) as P by (split; [apply Rmult_le_pos; lra|apply Rmult_le_compat; lra]).
  assert (Rabs (b2r x * IZR a) <= bpow radix2 15) as B by (change (bpow radix2 15) with 32768; apply Rabs_le; lra).
  destruct (fmul_spec x (f_of_Z a) Fx Fa) as (Em & Fm); [rewrite Va; eapply Rle_trans; [exact B|apply bpow_le; lia]|].
  pose proof (rnd32_err _ 15 B ltac:(lia)) as R. rewrite Va in Em. rewrite <- Em in R. change (bpow radix2 (15 - 25)) with (/ 1024) in R. apply Rabs_le_inv in R.
  assert (0 <= b2r (fmul x (f_of_Z a))) as M0 by (rewrite Em; apply rnd32_ge_r; [apply rep32_IZR; lia|lra]).
  destruct (d_of_f_exact _ Fm) as (Ed & Fd). destruct dhalf_facts as (Eh & Fh).
  set (t := fmul x (f_of_Z a)) in *. clearbody t.
  assert (Rabs (b2r (d_of_f t) + b2r (dlit 1 2)) <= bpow radix2 16) as B2 by (rewrite Ed, Eh; change (bpow radix2 16) with 65536; apply Rabs_le; lra).
  destruct (dadd_spec _ _ Fd Fh) as (Es & Fs); [eapply Rle_trans; [exact B2|apply bpow_le; lia]|].
  pose proof (rnd64_err _ 16 B2 ltac:(lia)) as R2. rewrite <- Es, Ed, Eh in R2. change (bpow radix2 (16 - 54)) with (/ 274877906944) in R2. apply Rabs_le_inv in R2.
  set (s := dadd _ _) in *. clearbody s.
  pose proof (trunc_near (b2r s) ltac:(lra)) as T.
  assert (v = Ztrunc (b2r s)) as ->.
  { assert (0 <= Ztrunc (b2r s) <= 65535)%Z as TB.
    { split; [rewrite Ztrunc_floor by lra; apply Zfloor_lub; simpl; lra|]. apply Z.lt_succ_r, lt_IZR. simpl. lra. }
    assert (d_to_u16 s = Ok (Ztrunc (b2r s))) as K by (apply d_to_Z_ok; [exact Fs|lia]). rewrite K in E. injection E as E. auto. }
  assert (Rabs (b2r x * IZR a - IZR a * X) <= 9 / 10000 * IZR a) as D.
  { replace (b2r x * IZR a - IZR a * X) with ((b2r x - X) * IZR a) by ring. rewrite Rabs_mult, (Rabs_pos_eq (IZR a)) by lra. apply Rmult_le_compat_r; lra. }
  apply Rabs_le_inv in D. apply Rabs_le. lra.
Qed.

(** ** The eraser *)
Definition sigmoid (x : R) : R := let b := 8 * x - 3 in Rmax 0 (Rmin 1 (1 / 2 + b / (1 + 165 / 100 * Rabs b))).
Lemma clampf_close : forall x v e, ap x v e -> ap (clampf x f0 f1) (Rmax 0 (Rmin 1 v)) e.
Proof.
  intros x v e (F & H). destruct f0_val as (V0 & F0). destruct f1_val as (V1 & F1).
  assert (fin (clampf x f0 f1) /\ b2r (clampf x f0 f1) = Rmax 0 (Rmin 1 (b2r x))) as (Fc & Vc).
  { unfold clampf. rewrite !flt_spec, V0, V1 by auto. unfold Rmax, Rmin. destruct (Rle_dec 1 (b2r x)) as [Q|Q].
    - destruct (Rle_dec 0 1); [|lra]. destruct (Rlt_bool_spec 1 (b2r x)); [auto|]. destruct (Rlt_bool_spec (b2r x) 0); [lra|]. split; auto; lra.
    - destruct (Rlt_bool_spec 1 (b2r x)); [lra|]. destruct (Rlt_bool_spec (b2r x) 0); destruct (Rle_dec 0 (b2r x)); solve [lra|split; auto; lra]. }
  split; [exact Fc|]. rewrite Vc. apply clamp_near. exact H.
Qed.

Lemma factor_close : forall a, (0 <= a <= 32768)%Z ->
  ap (clampf (spectral_blend_factor (fdiv (f_of_Z a) (f_of_Z 32768))) f0 f1) (sigmoid (part a 32768)) (2 / 1000000).
Proof.
  intros a Ha. unfold sigmoid. cbv zeta. apply clampf_close. unfold spectral_blend_factor. cbv zeta.
  assert (0 <= IZR a <= 32768) as A by (split; apply IZR_le; lia).
  assert (forall n, (Z.abs n <= 1048576)%Z -> rep32 (IZR n * / IZR (2 ^ 15))) as RP by (intros n Hn; apply rep32_dy; lia).
  change (IZR (2 ^ 15)) with 32768 in RP.
  destruct (f_of_Z_exact a ltac:(lia)) as (Va & Fa). destruct (f_of_Z_exact 32768 ltac:(lia)) as (Vo & Fo).
  destruct (f_of_Z_exact 8 ltac:(lia)) as (V8 & F8). destruct (f_of_Z_exact 3 ltac:(lia)) as (V3 & F3).
  assert (fin (fdiv (f_of_Z a) (f_of_Z 32768)) /\ b2r (fdiv (f_of_Z a) (f_of_Z 32768)) = part a 32768) as (Fx & Vx).
  { destruct (fdiv_spec (f_of_Z a) (f_of_Z 32768) Fa) as (E & F); [rewrite Vo; lra|rewrite Va, Vo; apply big127, Rabs_le; lra|]. split; [exact F|].
    rewrite E, Va, Vo. unfold part. apply rnd32_id. apply RP. lia. }
  set (x := fdiv _ _) in *. clearbody x.
  assert (part a 32768 = IZR a * / 32768) as PX by reflexivity.
  assert (fin (fmul x (f_of_Z 8)) /\ b2r (fmul x (f_of_Z 8)) = 8 * part a 32768) as (F1 & V1).
  { destruct (fmul_spec x (f_of_Z 8) Fx F8) as (E & F); [rewrite Vx, V8; apply big127, Rabs_le; lra|]. split; [exact F|].
    rewrite E, Vx, V8. rewrite rnd32_id; [ring|]. rewrite PX. replace (IZR a * / 32768 * 8) with (IZR (a * 8) * / 32768) by (rewrite mult_IZR; ring). apply RP. lia. }
  assert (fin (fsub (fmul x (f_of_Z 8)) (f_of_Z 3)) /\ b2r (fsub (fmul x (f_of_Z 8)) (f_of_Z 3)) = 8 * part a 32768 - 3) as (F2 & V2).
  { destruct (fsub_spec _ _ F1 F3) as (E & F); [rewrite V1, V3; apply big127, Rabs_le; lra|]. split; [exact F|].
    rewrite E, V1, V3. rewrite rnd32_id; [ring|]. rewrite PX. replace (8 * (IZR a * / 32768) - 3) with (IZR (a * 8 - 98304) * / 32768) by (rewrite minus_IZR, mult_IZR; lra). apply RP. lia. }
  set (b := fsub _ _) in *. clearbody b. set (B := 8 * part a 32768 - 3) in *.
  assert (-3 <= B <= 5) as HB by (unfold B; lra). clearbody B.
  assert (Rabs B <= 5) as HB' by (apply Rabs_le; lra). pose proof (Rabs_pos B) as PB.
  assert (ap (fabs b) (Rabs B) 0) as A1.
  { apply ap_exact; [unfold fin, fabs; rewrite is_finite_Babs; exact F2|unfold fabs; rewrite <- V2; apply B2R_Babs]. }
  assert (ap (f_of_d (dlit 165 100)) (165 / 100) (/ 8388608)) as A2.
  { assert (B2SF (f_of_d (dlit 165 100)) = SpecFloat.S754_finite false 13841203 (-23)) as E by (vm_compute; reflexivity).
    destruct (const_val _ _ _ E) as (F & V). split; [exact F|]. rewrite V. change (bpow radix2 (-23)) with (/ 8388608). apply Rabs_le. lra. }
  assert (ap (fmul (fabs b) (f_of_d (dlit 165 100))) (Rabs B * (165 / 100)) (12 / 10000000)) as A3.
  { eapply ap_weak; [apply (ap_mul 4 5 2); [exact A1|exact A2|rewrite Rabs_Rabsolu; lra|rewrite Rabs_pos_eq; lra|lia|]|].
    - rewrite Rabs_mult, Rabs_Rabsolu, (Rabs_pos_eq (165 / 100)) by lra. change (bpow radix2 4) with 16. lra.
    - change (bpow radix2 (4 - 25)) with (/ 2097152). lra. }
  assert (ap (fadd f1 (fmul (fabs b) (f_of_d (dlit 165 100)))) (1 + Rabs B * (165 / 100)) (17 / 10000000)) as A4.
  { destruct f1_val as (W1 & G1). eapply ap_weak; [apply (ap_add 4); [apply ap_exact; [exact G1|exact W1]|exact A3|lia|]|].
    - rewrite Rabs_pos_eq by lra. change (bpow radix2 4) with 16. lra.
    - change (bpow radix2 (4 - 25)) with (/ 2097152). lra. }
  assert (Rabs (B / (1 + Rabs B * (165 / 100))) <= 2 / 3) as Q.
  { unfold Rdiv at 1. rewrite Rabs_mult, (Rabs_pos_eq (/ _)) by (left; apply Rinv_0_lt_compat; lra).
    apply Rmult_le_reg_r with (1 + Rabs B * (165 / 100)); [lra|]. rewrite Rmult_assoc, Rinv_l by lra. lra. }
  assert (ap (fdiv b (fadd f1 (fmul (fabs b) (f_of_d (dlit 165 100))))) (B / (1 + Rabs B * (165 / 100))) (13 / 10000000)) as A5.
  { eapply ap_weak; [apply (ap_div 0 (99 / 100) (2 / 3)); [apply ap_exact; [exact F2|exact V2]|exact A4|lra|lra|exact Q|lia|]|].
    - change (bpow radix2 0) with 1. lra.
    - change (bpow radix2 (0 - 25)) with (/ 33554432). lra. }
  destruct A5 as (Fq & Hq). set (q := fdiv _ _) in *. clearbody q. replace (165 / 100 * Rabs B) with (Rabs B * (165 / 100)) by ring.
  set (v := B / (1 + Rabs B * (165 / 100))) in *. clearbody v. apply Rabs_le_inv in Hq. apply Rabs_le_inv in Q.
  destruct (d_of_f_exact q Fq) as (Ed & Fd). destruct dhalf_facts as (Eh & Fh).
  assert (Rabs (b2r (dlit 1 2) + b2r (d_of_f q)) <= bpow radix2 1) as B2 by (rewrite Ed, Eh; change (bpow radix2 1) with 2; apply Rabs_le; lra).
  destruct (dadd_spec _ _ Fh Fd) as (Es & Fs); [eapply Rle_trans; [exact B2|apply bpow_le; lia]|].
  pose proof (rnd64_err _ 1 B2 ltac:(lia)) as R2. rewrite <- Es, Ed, Eh in R2. change (bpow radix2 (1 - 54)) with (/ 9007199254740992) in R2. apply Rabs_le_inv in R2.
  set (s := dadd _ _) in *. clearbody s.
  assert (Rabs (b2r s) <= bpow radix2 1) as B3 by (change (bpow radix2 1) with 2; apply Rabs_le; lra).
  destruct (f_of_d_spec s Fs) as (E & F); [eapply Rle_trans; [exact B3|apply bpow_le; lia]|].
  pose proof (rnd32_err _ 1 B3 ltac:(lia)) as R3. rewrite <- E in R3. change (bpow radix2 (1 - 25)) with (/ 16777216) in R3. apply Rabs_le_inv in R3.
  split; [exact F|]. apply Rabs_le. lra.
Qed.

Lemma compl_close : forall x v e, ap x v e -> 0 <= v <= 1 -> 0 <= e <= 1 / 2 -> ap (f_of_d (dsub (d_of_Z 1) (d_of_f x))) (1 - v) (e + / 8388608).
Proof.
  intros x v e (Ff & Hf) Hv He. destruct (d_of_f_exact x Ff) as (Ex & Fd). destruct (d_of_Z_exact 1 ltac:(lia)) as (V1 & F1').
  pose proof Hf as Hf'. apply Rabs_le_inv in Hf'.
  assert (Rabs (b2r (d_of_Z 1) - b2r (d_of_f x)) <= bpow radix2 1) as B by (rewrite V1, Ex; change (bpow radix2 1) with 2; apply Rabs_le; lra).
  destruct (dsub_spec (d_of_Z 1) (d_of_f x) F1' Fd) as (Es & Fs); [eapply Rle_trans; [exact B|apply bpow_le; lia]|].
  pose proof (rnd64_err _ 1 B ltac:(lia)) as R64. rewrite <- Es, V1, Ex in R64. change (bpow radix2 (1 - 54)) with (/ 9007199254740992) in R64.
  set (w := dsub _ _) in *. clearbody w. apply Rabs_le_inv in R64.
  assert (Rabs (b2r w) <= bpow radix2 1) as Bw by (change (bpow radix2 1) with 2; apply Rabs_le; lra).
  destruct (f_of_d_spec w Fs) as (E & F); [eapply Rle_trans; [exact Bw|apply bpow_le; lia]|].
  pose proof (rnd32_err _ 1 Bw ltac:(lia)) as R32. rewrite <- E in R32. change (bpow radix2 (1 - 25)) with (/ 16777216) in R32. apply Rabs_le_inv in R32.
  split; [exact F|]. apply Rabs_le. lra.
Qed.

Lemma sigmoid_range : forall x, 0 <= sigmoid x <= 1.
Proof. intros x. unfold sigmoid. cbv zeta. set (y := 1 / 2 + _). unfold Rmax, Rmin. destruct (Rle_dec 1 y); [destruct (Rle_dec 0 1); lra|]. destruct (Rle_dec 0 y); lra. Qed.

(** [c]: the additive colour; [c']: what the code adds instead when that has no weight *)
Lemma erase_close : forall sf x X w c c' o v, ap sf w (2 / 1000000) -> 0 <= w <= 1 -> ap x X (9 / 10000) -> 0 <= X <= 1 ->
  (0 <= c <= o)%Z -> (0 <= o <= 32768)%Z ->
  let af := f_of_d (dsub (d_of_Z 1) (d_of_f sf)) in
  (c' = c \/ c' = 0%Z /\ b2r af = 0) ->
  f_to_u32 (fadd (fmul af (f_of_Z c')) (fmul (fmul sf x) (f_of_Z o))) = Ok v -> (0 <= v <= o)%Z ->
  Rabs (IZR v - ((1 - w) * IZR c + w * (IZR o * X))) <= 9 / 10000 * IZR o + 5 / 4.
Proof.
  intros sf x X w c c' o v Hsf Hw Hx HX Hc Ho af Hc' E Hv.
  pose proof (compl_close sf w _ Hsf Hw ltac:(lra)) as Haf. fold af in Haf. 
  assert (0 <= IZR c <= IZR o) as C by (split; apply IZR_le; lia). assert (0 <= IZR o <= 32768) as O by (split; apply IZR_le; lia).
  destruct (f_of_Z_exact o ltac:(lia)) as (Vo & Fo). destruct (f_of_Z_exact c' ltac:(lia)) as (Vc & Fc).
  assert (0 <= (1 - w) * IZR c <= 1 * IZR o) as WC by (split; [apply Rmult_le_pos; lra|apply Rmult_le_compat; lra]).
  assert (ap (fmul af (f_of_Z c')) ((1 - w) * IZR c) (72 / 1000)) as A1.
  { assert (IZR c * (2 / 1000000 + / 8388608) <= 70 / 1000) as T by lra.
    destruct Hc' as [->|(-> & Z0)].
    - eapply ap_weak; [apply (ap_mul 16 2 (IZR c)); [exact Haf|apply ap_exact; [exact Fc|exact Vc]|rewrite Rabs_pos_eq; lra|rewrite Rabs_pos_eq; lra|lia|]|].
      + rewrite (Rabs_pos_eq ((1 - w) * IZR c)) by lra. change (bpow radix2 16) with 65536. lra.
      + change (bpow radix2 (16 - 25)) with (/ 512). lra.
    - destruct Haf as (Fa & Ha). rewrite Z0 in Ha. apply Rabs_le_inv in Ha.
      destruct (fmul_spec af (f_of_Z 0) Fa Fc) as (E1 & F1); [rewrite Z0, Rmult_0_l, Rabs_R0; apply bpow_ge_0|]. split; [exact F1|].
      rewrite E1, Z0, Rmult_0_l, rnd32_id by (apply rep32_IZR; lia).
      assert ((1 - w) * IZR c <= (2 / 1000000 + / 8388608) * IZR c) by (apply Rmult_le_compat_r; lra). apply Rabs_le. lra. }
  clearbody af.
  assert (0 <= w * X <= 1 * 1) as WX by (split; [apply Rmult_le_pos; lra|apply Rmult_le_compat; lra]).
  assert (ap (fmul sf x) (w * X) (9 / 10000 + 3 / 1000000)) as A2.
  { eapply ap_weak; [apply (ap_mul 1 (w + 2 / 1000000) 1); [exact Hsf|exact Hx|rewrite Rabs_pos_eq; lra|rewrite Rabs_pos_eq; lra|lia|]|].
    - rewrite (Rabs_pos_eq (w * X)) by lra. change (bpow radix2 1) with 2. lra.
    - change (bpow radix2 (1 - 25)) with (/ 16777216). lra. }
  assert (0 <= w * X * IZR o <= 1 * IZR o) as WO by (split; [apply Rmult_le_pos; lra|apply Rmult_le_compat_r; lra]).
  assert (ap (fmul (fmul sf x) (f_of_Z o)) (w * X * IZR o) (9 / 10000 * IZR o + 101 / 1000)) as A3.
  { eapply ap_weak; [apply (ap_mul 16 2 (IZR o)); [exact A2|apply ap_exact; [exact Fo|exact Vo]|rewrite Rabs_pos_eq; lra|rewrite Rabs_pos_eq; lra|lia|]|].
    - rewrite (Rabs_pos_eq (w * X * IZR o)) by lra. change (bpow radix2 16) with 65536. lra.
    - change (bpow radix2 (16 - 25)) with (/ 512). lra. }
  assert (ap (fadd (fmul af (f_of_Z c')) (fmul (fmul sf x) (f_of_Z o))) ((1 - w) * IZR c + w * X * IZR o) (9 / 10000 * IZR o + 18 / 100)) as (F & A4).
  { eapply ap_weak; [apply (ap_add 17); [exact A1|exact A3|lia|]|].
    - rewrite Rabs_pos_eq by lra. change (bpow radix2 17) with 131072. lra.
    - change (bpow radix2 (17 - 25)) with (/ 256). lra. }
  set (t := fadd _ _) in *. clearbody t.
  assert (IZR v - 1 <= b2r t <= IZR v + 1) as T.
  { destruct (f_to_Z_inv _ _ _ _ E) as (_ & -> & _). apply trunc_any. }
  apply Rabs_le_inv in A4. apply Rabs_le. replace (w * (IZR o * X)) with (w * X * IZR o) by ring. lra.
Qed.
