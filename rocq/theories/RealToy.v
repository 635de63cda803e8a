(** A setting for the examples about exact real arithmetic: the mathematical
    functions, a random generator that always returns 1/2, a surface that
    accepts every dab, and brushes whose settings are all constant. *)
From Verif Require Import Base F32 F32Proofs Arith Color Mapping P_Mapping Settings Spectral Brush BrushProofs ReturnProofs StepFacts StrokeExact.
From Coq Require Import Reals Lra.
From Flocq Require Import Core.Core.
Local Open Scope Z_scope.

Definition mathR : mathlib mixR :=
  mkMath mixR (PI : dbl mixR) (exp : R -> R) (ln : R -> R) (ln : R -> R) (Rpower : R -> R -> R)
    (fun x y => sqrt (x * x + y * y)%R) (fun x y => sqrt (x * x + y * y)%R) (fun y x => atan (y / x)) (fun y x => atan (y / x))
    (cos : R -> R) (sin : R -> R) (sqrt : R -> R) (fun x y => (x - IZR (Ztrunc (x / y)) * y)%R) (fun x => IZR (ZnearestA x)) (Rabs : R -> R)
    (fun x => (- x)%R) (fun x => (- x)%R) (fun _ => true) (fun _ => false).
Lemma mathR_ok : real_library mathR.
Proof. constructor; reflexivity. Qed.

Definition stillR : env mixR :=
  mkEnv mixR unit (fun g => Ok ((1 / 2)%R : dbl mixR, g)) unit (fun s _ => Ok (true, s)) (fun s _ _ _ _ => Ok ((0%R, 0%R, 0%R, 0%R) : rgba mixR, s)).
Definition worldR : world stillR := mkWorld (E := stillR) (M := mixR) tt ((0%R, 0%R, 0%R, 0%R) : rgba mixR).

(** a setting without dynamics *)
Definition flat (v : R) : mapping (sng mixR) := mapping_set_base (mapping_new (sng mixR) INPUTS_COUNT) (v : sng mixR).
Section Flat.
  Context {E : env mixR} (g : e_rng E).
(** the brush with these base values and states *)
Definition flat_on (bv sv : nat -> R) : brush E :=
  mkBrush (E := E) (0%R : dbl mixR) (0%R : dbl mixR) (map sv (seq 0 STATES_COUNT)) None 0 (-1) (-1) (0%R : dbl mixR)
    (0%R : sng mixR) (0%R : sng mixR) (0%R : sng mixR) (0%R : sng mixR) g (map (fun i => flat (bv i)) (seq 0 SETTINGS_COUNT)) (repeat (0%R : sng mixR) SETTINGS_COUNT)
    ((0%R, 0%R) : sng mixR * sng mixR) ((0%R, 0%R) : sng mixR * sng mixR) ((0%R, 0%R) : sng mixR * sng mixR) false.

Lemma on_setting : forall bv sv i m, nth_error (b_settings (flat_on bv sv)) i = Some m -> m = flat (bv i).
Proof.
  intros bv sv i m H. unfold flat_on in H. cbn [b_settings] in H. rewrite nth_error_map in H. destruct (nth_error (seq 0 SETTINGS_COUNT) i) as [j|] eqn:N; [|discriminate].
  injection H as <-. f_equal. f_equal. pose proof (nth_error_nth _ _ 0%nat N) as X. rewrite seq_nth in X; [symmetry; exact X|].
  assert (nth_error (seq 0 SETTINGS_COUNT) i <> None) as Y by congruence. apply nth_error_Some in Y. rewrite seq_length in Y. exact Y.
Qed.
Lemma on_base : forall bv sv i, (i < SETTINGS_COUNT)%nat -> (base (flat_on bv sv) i : R) = bv i.
Proof.
  intros bv sv i Hi. unfold base. destruct (nth_error (b_settings (flat_on bv sv)) i) as [m|] eqn:N; [apply on_setting in N; subst m; reflexivity|].
  apply nth_error_None in N. unfold flat_on in N. cbn [b_settings] in N. rewrite map_length, seq_length in N. lia.
Qed.
Lemma on_constant : forall bv sv i, Brush.constant (flat_on bv sv) i = true.
Proof. intros bv sv i. unfold Brush.constant. destruct (nth_error (b_settings (flat_on bv sv)) i) as [m|] eqn:N; [apply on_setting in N; subst m; reflexivity|reflexivity]. Qed.
Lemma on_state : forall bv sv i, (i < STATES_COUNT)%nat -> (st (flat_on bv sv) i : R) = sv i.
Proof.
  intros bv sv i Hi. unfold st, flat_on. cbn [b_states]. rewrite (nth_indep _ _ (sv 0%nat)) by (rewrite map_length, seq_length; exact Hi).
  rewrite map_nth. rewrite seq_nth by exact Hi. reflexivity.
Qed.
Lemma on_states : forall bv sv, has_states (flat_on bv sv).
Proof. intros bv sv. unfold has_states, flat_on. cbn [b_states]. rewrite map_length, seq_length. reflexivity. Qed.

Lemma on_plain : forall bv sv, sv STATE_FLIP = 1%R -> bv SET_COLOR_S = 0%R -> bv SET_SMUDGE = 0%R ->
  bv SET_CHANGE_COLOR_H = 0%R -> bv SET_CHANGE_COLOR_HSV_S = 0%R -> bv SET_CHANGE_COLOR_V = 0%R -> plain (flat_on bv sv).
Proof.
  intros bv sv Hf Hs H1 H2 H3 H4. split; [|split; [|split; [|split]]].
  - split; [apply on_states|]. split; [|split; [reflexivity|reflexivity]]. split; [unfold flat_on; cbn [b_settings]; rewrite map_length, seq_length; reflexivity|].
    apply Forall_forall. intros m Hm. apply In_nth_error in Hm. destruct Hm as (i & N). apply on_setting in N. subst m.
    exists [SetBase (bv i : sng mixR)]. unfold edited. reflexivity.
  - intros i m N data _. apply on_setting in N. subst m. exists (bv i). reflexivity.
  - left. etransitivity; [exact (on_state bv sv STATE_FLIP ltac:(vm_compute; lia))|exact Hf].
  - unfold hsv_to_rgb. cbv zeta. eexists. rewrite (on_base bv sv SET_COLOR_S ltac:(vm_compute; lia)). rewrite Hs.
    unfold clamp01. cbn [mixR wid nar nlt neqb nofZ sng dbl numR car]. rewrite !Rlt_bool_false by lra. rewrite Req_bool_true by reflexivity. reflexivity.
  - repeat constructor; try apply on_constant; rewrite (on_base bv sv) by (vm_compute; lia); rewrite ?H1, ?H2, ?H3, ?H4; apply Req_bool_true; reflexivity.
Qed.
End Flat.

(** the same where the random generator always returns 1/2 *)
Definition flat_brush (bv sv : nat -> R) : brush stillR := flat_on (E := stillR) tt bv sv.
Lemma flat_base : forall bv sv i, (i < SETTINGS_COUNT)%nat -> (base (flat_brush bv sv) i : R) = bv i.
Proof. apply on_base. Qed.
Lemma flat_constant : forall bv sv i, Brush.constant (flat_brush bv sv) i = true.
Proof. apply on_constant. Qed.
Lemma flat_state : forall bv sv i, (i < STATES_COUNT)%nat -> (st (flat_brush bv sv) i : R) = sv i.
Proof. apply on_state. Qed.
Lemma flat_states : forall bv sv, has_states (flat_brush bv sv).
Proof. apply on_states. Qed.
Lemma flat_plain : forall bv sv, sv STATE_FLIP = 1%R -> bv SET_COLOR_S = 0%R -> bv SET_SMUDGE = 0%R ->
  bv SET_CHANGE_COLOR_H = 0%R -> bv SET_CHANGE_COLOR_HSV_S = 0%R -> bv SET_CHANGE_COLOR_V = 0%R -> plain (flat_brush bv sv).
Proof. apply on_plain. Qed.

Lemma real_1 : exists z, to_i (m := mixR) (wid (m := mixR) (@nofZ (sng mixR) 1)) = Ok z.
Proof. exists 1. cbn [mixR to_i wid nofZ sng numR]. rewrite Ztrunc_IZR. reflexivity. Qed.
Lemma real_m1 : exists z, to_i (m := mixR) (wid (m := mixR) (@nofZ (sng mixR) (-1))) = Ok z.
Proof. exists (-1). cbn [mixR to_i wid nofZ sng numR]. rewrite Ztrunc_IZR. reflexivity. Qed.
Lemma real_11 : nmul (@nofZ (sng mixR) 1) (@nofZ (sng mixR) (-1)) = @nofZ (sng mixR) (-1).
Proof. cbn. lra. Qed.
Lemma real_mm : nmul (@nofZ (sng mixR) (-1)) (@nofZ (sng mixR) (-1)) = @nofZ (sng mixR) 1.
Proof. cbn. lra. Qed.
Lemma real_Z : forall v : sng mixR, neqb v (@nofZ (sng mixR) 0) = true -> nlt (@nofZ (dbl mixR) 0) (wid (m := mixR) v) = false.
Proof. intros v. cbn [mixR wid nlt neqb nofZ sng dbl numR car]. destruct (Req_bool_spec v 0) as [->|]; [|discriminate]. intros _. apply Rlt_bool_false. lra. Qed.
Lemma still_next : forall g, exists r, e_next stillR g = Ok r.
Proof. intros g. eexists. reflexivity. Qed.
Lemma still_draw : forall s x, exists r, e_draw stillR s x = Ok r.
Proof. intros s x. eexists. reflexivity. Qed.
