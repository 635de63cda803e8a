(** A small computable setting for the examples beside the theorems about the
    brush: C floats, a stand-in for the mathematical library (every brush radius
    is 1), a random generator that always returns 1/2 and a surface that records
    the dabs it is asked to draw. *)
From Verif Require Import Base F32 Arith Color Mapping Settings Spectral Rect Brush BrushProofs BrushInst.
From Flocq Require Import IEEE754.BinarySingleNaN.
Local Open Scope Z_scope.

Definition toy_lib : mathlib mix64 :=
  mkMath mix64 (d_of_Z 3) (fun _ => f_of_Z 1) (fun _ => f_of_Z 0) (fun _ => d_of_Z 0) (fun x _ => x)
    (fun x y => fadd (fabs x) (fabs y)) (fun x y => dadd (Babs x) (Babs y)) (fun _ _ => f_of_Z 0) (fun _ _ => d_of_Z 0)
    (fun _ => d_of_Z 1) (fun _ => d_of_Z 0) (Bsqrt mode_NE) (fun x _ => x) froundf fabs fopp dopp
    (fun x => is_finite x) (fun x => is_nan x).

Definition toy : env mix64 :=
  mkEnv mix64 unit (fun g => Ok (dlit 1 2 : dbl mix64, g)) (list (dab mix64)) (fun l d => Ok (true, d :: l))
    (fun l _ _ _ _ => Ok ((flit 1 4, flit 1 2, flit 3 4, f_of_Z 1) : rgba mix64, l)).

(** a pen event at (x, y) with the given pressure, dtime in milliseconds *)
Definition pen (x y p ms : Z) : event mix64 :=
  mkEvent (M := mix64) (f_of_Z x) (f_of_Z y) (flit p 100) f0 f0 (dlit ms 1000) f1 f0 f0 false.

Definition toy_world : world toy := mkWorld (E := toy) (M := mix64) [] ((f0, f0, f0, f0) : rgba mix64).
Definition calls := list (call mix64).
Definition run_calls (cs : calls) (b : brush toy) (w : world toy) : outcome (option (brush toy * world toy)) :=
  ofold (fun a c => match a with Some (b, w) => run_call toy_lib 20 b w c | None => Ok None end) cs (Some (b, w)).
Definition toy_brush (n : Z) : outcome (brush toy) := brush_new (E := toy) toy_lib n tt [] [] 0 0.

(** what a session leaves *)
Definition session (n : Z) (cs : calls) : outcome (option (brush toy * world toy)) :=
  let* b := toy_brush n in run_calls cs b toy_world.
Lemma session_reachable : forall n cs b w, n <= 16777217 -> session n cs = Ok (Some (b, w)) -> reachable toy_lib b.
Proof.
  intros n cs b w Hn H. unfold session in H. apply obind_ok in H. destruct H as (b0 & E0 & H).
  assert (reachable toy_lib b0) as R0.
  { eapply r_new; [exact E0|]. intros. apply index_ok_64. lia. }
  clear E0. revert H R0. unfold run_calls. generalize toy_world as w0. revert b0.
  induction cs as [|c cs IH]; intros b0 w0 H R0; cbn [ofold] in H.
  - injection H as -> _. auto.
  - apply obind_ok in H. destruct H as (r & Er & H). destruct r as [[b1 w1]|].
    + eapply IH; [exact H|]. eapply r_call; eauto.
    + exfalso. clear - H. induction cs; cbn in H; [discriminate|auto].
Qed.

Definition zid (n : nat) : Z := Z.of_nat n.
Definition set_base (i : nat) (v : f32) : call mix64 := CBase (M := mix64) (zid i) v.
(** a smudging brush that uses bucket 1 *)
Definition smudging : calls :=
  [set_base SET_SMUDGE (flit 1 2); set_base SET_SMUDGE_LENGTH (flit 1 2); set_base SET_SMUDGE_BUCKET f1;
   set_base SET_OPAQUE f1; set_base SET_OPAQUE_MULTIPLY f1; set_base SET_DABS_PER_ACTUAL_RADIUS f1;
   set_base SET_HARDNESS (flit 1 2)].

(** Running a session and checking the result by computation. *)
Definition after (n : Z) (cs : calls) (P : brush toy -> world toy -> bool) : bool :=
  match session n cs with Ok (Some (b, w)) => P b w | _ => false end.
Lemma after_ok n cs P : after n cs P = true -> exists b w, session n cs = Ok (Some (b, w)) /\ P b w = true.
Proof. unfold after. destruct (session n cs) as [[[b w]|]| |]; intros H; try discriminate H. exists b, w. auto. Qed.
