(** Property C34, the loop with C floats: an event with a positive finite demand
    for dabs that is never done. *)
From Verif Require Import Base F32 F32Proofs Arith Color Mapping Settings Spectral Brush BrushProofs BrushInst BrushToy DabFrame.
From Flocq Require Import Core.Core IEEE754.BinarySingleNaN.
Local Open Scope Z_scope.

Section Log.
  Context {M : mixed} (L : mathlib M) {E : env M}.
  (** the log does not matter *)
  Definition with_log (p : progress E) l : progress E := mkProgress (p_brush p) (p_world p) (p_painted p) (p_left p) (p_moved p) (p_todo p) l.
  Lemma one_dab_log : forall g (p p' : progress E) l, one_dab L g p = Ok p' -> exists l', one_dab L g (with_log p l) = Ok (with_log p' l').
  Proof.
    intros g p p' l O. unfold one_dab in *. cbv zeta in *. cbn [with_log p_brush p_world p_painted p_left p_moved p_todo p_log] in *.
    match type of O with (let '(_, _) := ?e in _) = _ => destruct e as [ddab moved] end.
    apply obind_ok in O. destruct O as (b1 & E1 & O). rewrite E1. cbn [obind].
    apply obind_ok in O. destruct O as (((pn, b2), w2) & E2 & O). rewrite E2. cbn [obind].
    apply obind_ok in O. destruct O as ((r, rg) & E3 & O). rewrite E3. cbn [obind].
    match type of O with context [count_dabs_to ?a ?b ?c ?d ?e] => destruct (count_dabs_to a b c d e) as [todo b3] end.
    injection O as <-. eexists. reflexivity.
  Qed.

  (** where an event starts to paint *)
  Definition start (b : brush E) (w : world E) (e : event M) : option (target M * progress E) :=
    match sanitise L e with
    | Ok (t, e) =>
        if nlt (dec 100 1000) (ev_dtime e) && truthy (ev_pressure e) && neqb (st b STATE_PRESSURE) (nofZ 0) then None
        else
          let '(b, go) := skip_input L b (ev_x e) (ev_y e) (ev_dtime e) in
          match go with
          | None => None
          | Some dtime =>
              match track L b (ev_x e) (ev_y e) dtime with
              | Ok (x, y, b) =>
                  if nlt (nofZ 5) dtime || b_reset b then None
                  else
                    let g := mkTarget x y (ev_pressure e) t (ev_viewzoom e) (ev_viewrotation e) (ev_barrel e) (ev_linear e) in
                    let '(todo, b') := count_dabs_to L b (g_x g) (g_y g) (nar dtime) in
                    Some (g, mkProgress b' w None dtime (st b STATE_PARTIAL_DABS) todo [])
              | _ => None
              end
          end
    | _ => None
    end.
  Lemma start_dabs : forall b w e g p n, start b w e = Some (g, p) -> dabs L n g p = Ok None -> stroke_to L n b w e = Ok None.
  Proof.
    intros b w e g p n H D. unfold start, stroke_to in *. destruct (sanitise L e) as [[t e1]| |]; [|discriminate..]. cbn [obind].
    match goal with |- (if ?c then _ else _) = _ => destruct c; [discriminate|] end. unfold stroke_rest. destruct (skip_input _ _ _ _ _) as [b1 go]. destruct go as [dt|]; [|discriminate].
    destruct (track L b1 (ev_x e1) (ev_y e1) dt) as [[[x y] b2]| |]; [|discriminate..]. cbn [obind]. match goal with |- (if ?c then _ else _) = _ => destruct c; [discriminate|] end.
    unfold paint_to, paint_dabs. cbv zeta in *. destruct (count_dabs_to _ _ _ _ _) as [todo b3]. injection H as <- <-. rewrite D. reflexivity.
  Qed.
End Log.

(** equality of floats and lists, by computation *)
Definition sf_eqb (x y : SpecFloat.spec_float) : bool :=
  match x, y with
  | SpecFloat.S754_zero a, SpecFloat.S754_zero b | SpecFloat.S754_infinity a, SpecFloat.S754_infinity b => Bool.eqb a b
  | SpecFloat.S754_nan, SpecFloat.S754_nan => true
  | SpecFloat.S754_finite a m e, SpecFloat.S754_finite b n f => Bool.eqb a b && Pos.eqb m n && Z.eqb e f
  | _, _ => false
  end.
Lemma sf_eq : forall x y, sf_eqb x y = true -> x = y.
Proof.
  intros [a|a| |a m e] [b|b| |b n f] H; cbn in H; try discriminate H; try reflexivity; try (apply Bool.eqb_prop in H; subst; reflexivity).
  apply andb_prop in H. destruct H as [H H3]. apply andb_prop in H. destruct H as [H1 H2]. apply Bool.eqb_prop in H1. apply Pos.eqb_eq in H2. apply Z.eqb_eq in H3. subst. reflexivity.
Qed.
Definition f_eqb (x y : f32) : bool := sf_eqb (B2SF x) (B2SF y).
Definition d_eqb (x y : f64) : bool := sf_eqb (B2SF x) (B2SF y).
Lemma f_eq : forall x y, f_eqb x y = true -> x = y.
Proof. intros x y H. apply B2SF_inj, sf_eq, H. Qed.
Lemma d_eq : forall x y, d_eqb x y = true -> x = y.
Proof. intros x y H. apply B2SF_inj, sf_eq, H. Qed.
Fixpoint fs_eqb (l l' : list f32) : bool :=
  match l, l' with [], [] => true | x :: l, y :: l' => f_eqb x y && fs_eqb l l' | _, _ => false end.
Lemma fs_eq : forall l l', fs_eqb l l' = true -> l = l'.
Proof. induction l as [|x l IH]; intros [|y l'] H; cbn in H; try discriminate; auto. apply andb_prop in H. destruct H as [H1 H2]. apply f_eq in H1. apply IH in H2. congruence. Qed.

(** a surface that only accepts dabs, and a random generator that always returns 1/2 *)
Definition wall : env mix64 :=
  mkEnv mix64 unit (fun g => Ok (dlit 1 2 : dbl mix64, g)) unit (fun s _ => Ok (true, s))
    (fun s _ _ _ _ => Ok ((f0, f0, f0, f0) : rgba mix64, s)).
Definition wall_world : world wall := mkWorld (E := wall) (M := mix64) tt ((f0, f0, f0, f0) : rgba mix64).

Definition mix_eqb (a b : rgba mix64) : bool :=
  let '(a1, a2, a3, a4) := a in let '(b1, b2, b3, b4) := b in f_eqb a1 b1 && f_eqb a2 b2 && f_eqb a3 b3 && f_eqb a4 b4.
Definition painted_eqb (a b : option bool) : bool :=
  match a, b with None, None => true | Some x, Some y => Bool.eqb x y | _, _ => false end.
Definition same (p q : progress wall) : bool :=
  fs_eqb (b_states (p_brush p)) (b_states (p_brush q)) && fs_eqb (b_values (p_brush p)) (b_values (p_brush q)) &&
  match b_buckets (p_brush p), b_buckets (p_brush q) with None, None => true | _, _ => false end &&
  Z.eqb (b_minb (p_brush p)) (b_minb (p_brush q)) && Z.eqb (b_maxb (p_brush p)) (b_maxb (p_brush q)) &&
  d_eqb (b_random (p_brush p)) (b_random (p_brush q)) && mix_eqb (w_mix (p_world p)) (w_mix (p_world q)) && painted_eqb (p_painted p) (p_painted q) &&
  d_eqb (p_left p) (p_left q) && f_eqb (p_moved p) (p_moved q) && f_eqb (p_todo p) (p_todo q).
Lemma same_eq : forall p q : progress wall, dabbed (p_brush p) (p_brush q) -> same p q = true -> q = with_log p (p_log q).
Proof.
  intros [b w pt lf mv td lg] [b' w' pt' lf' mv' td' lg'] D H. unfold same in H. cbn [p_brush p_world p_painted p_left p_moved p_todo p_log] in *.
  repeat (apply andb_prop in H; destruct H as [H ?]). unfold with_log. cbn [p_brush p_world p_painted p_left p_moved p_todo p_log].
  assert (b' = b) as ->.
  { rewrite D. apply fs_eq in H. rewrite <- H. repeat match goal with X : fs_eqb _ _ = true |- _ => apply fs_eq in X; rewrite <- X | X : d_eqb (b_random _) _ = true |- _ => apply d_eq in X; rewrite <- X | X : (_ =? _) = true |- _ => apply Z.eqb_eq in X; rewrite <- X end.
    destruct b as [? ? ? bk ? ? ? ? ? ? ? ? rg ? ? ? ? ? ?], b' as [? ? ? bk' ? ? ? ? ? ? ? ? rg' ? ? ? ? ? ?]. cbn in *. destruct bk, bk'; try discriminate. destruct rg, rg'. reflexivity. }
  assert (w' = w) as ->.
  { destruct w as [u [[[a1 a2] a3] a4]], w' as [u' [[[b1 b2] b3] b4]]. match goal with X : mix_eqb _ _ = true |- _ => unfold mix_eqb in X; cbn in X; repeat (apply andb_prop in X; destruct X as [X ?]) end.
    repeat match goal with X : f_eqb _ _ = true |- _ => apply f_eq in X end. destruct u, u'. congruence. }
  assert (pt' = pt) as ->. { destruct pt, pt'; cbn in *; try discriminate; try reflexivity. f_equal. symmetry. apply Bool.eqb_prop. assumption. }
  repeat match goal with X : f_eqb _ _ = true |- _ => apply f_eq in X | X : d_eqb _ _ = true |- _ => apply d_eq in X end. congruence.
Qed.

Lemma two_cycle : forall g p p1 p2, pending p = true -> one_dab toy_lib g p = Ok p1 -> pending p1 = true -> one_dab toy_lib g p1 = Ok p2 -> same p p2 = true ->
  forall n l, dabs toy_lib n g (with_log p l) = Ok None /\ dabs toy_lib n g (with_log p1 l) = Ok None.
Proof.
  intros g p p1 p2 P O P1 O1 Sm. assert (p2 = with_log p (p_log p2)) as E2.
  { apply same_eq; [|exact Sm]. eapply dabbed_trans; eapply one_dab_frame; eauto. }
  induction n as [|n IH]; intros l; cbn [dabs]; change (pending (with_log p l)) with (pending p); change (pending (with_log p1 l)) with (pending p1); rewrite P, P1; [auto|].
  destruct (one_dab_log toy_lib g p p1 l O) as (l1 & ->). destruct (one_dab_log toy_lib g p1 p2 l O1) as (l2 & ->). cbn [obind]. split; [apply IH|].
  rewrite E2. apply (IH l2).
Qed.

(** after k dabs the loop comes back to a state it was in two dabs before *)
Fixpoint cycles (k : nat) (g : target mix64) (p : progress wall) : bool :=
  pending p &&
  match one_dab toy_lib g p with
  | Ok p1 =>
      match k with
      | Datatypes.S k => cycles k g p1
      | O => pending p1 && match one_dab toy_lib g p1 with Ok p2 => same p p2 | _ => false end
      end
  | _ => false
  end.
Lemma cycles_endless : forall k g p, cycles k g p = true -> forall n l, dabs toy_lib n g (with_log p l) = Ok None.
Proof.
  induction k as [|k IH]; intros g p H n l; cbn [cycles] in H; apply andb_prop in H; destruct H as [P H]; destruct (one_dab toy_lib g p) as [p1| |] eqn:O; try discriminate.
  - apply andb_prop in H; destruct H as [P1 H]; destruct (one_dab toy_lib g p1) as [p2| |] eqn:O1; try discriminate; apply (two_cycle g p p1 p2 P O P1 O1 H n l).
  - destruct n as [|n]; cbn [dabs]; change (pending (with_log p l)) with (pending p); rewrite P; [reflexivity|].
    destruct (one_dab_log toy_lib g p p1 l O) as (l1 & ->). cbn [obind]. apply IH. exact H.
Qed.

(** *** The refutation *)
(** A brush of radius 1 with 4.2 dabs per radius (the documented maximum is 6),
    whose pen is at x = 4194304 = 2^22, where neighbouring floats are 1/2 apart,
    gets an event half a pixel further, 10 ms later: that is a demand of 2.1 dabs.
    The first dab asks for a step of 0.238 pixels, which rounds to nothing, so the
    distance that is left, and with it the demand, never shrinks. *)
Definition fine : calls := [set_base SET_OPAQUE f1; set_base SET_OPAQUE_MULTIPLY f1; set_base SET_DABS_PER_ACTUAL_RADIUS (flit 42 10)].
Definition wall_session (cs : calls) : outcome (option (brush wall * world wall)) :=
  let* b := brush_new (E := wall) toy_lib 0 tt [] [] 0 0 in
  ofold (fun a c => match a with Some (b, w) => run_call toy_lib 20 b w c | None => Ok None end) cs (Some (b, wall_world)).
Lemma wall_reachable : forall cs b w, wall_session cs = Ok (Some (b, w)) -> reachable toy_lib b.
Proof.
  intros cs b w H. unfold wall_session in H. apply obind_ok in H. destruct H as (b0 & E0 & H).
  assert (reachable toy_lib b0) as R0. { eapply r_new; [exact E0|]. intros. lia. }
  clear E0. revert H R0. generalize wall_world as w0. revert b0. induction cs as [|c cs IH]; intros b0 w0 H R0; cbn [ofold] in H.
  - injection H as -> _. auto.
  - apply obind_ok in H. destruct H as (r & Er & H). destruct r as [[b1 w1]|].
    + eapply IH; [exact H|]. eapply r_call; eauto.
    + exfalso. clear - H. induction cs; cbn in H; [discriminate|auto].
Qed.
Definition half_pixel : event mix64 := mkEvent (M := mix64) (flit 8388609 2) (f_of_Z 5) (flit 1 2) f0 f0 (dlit 10 1000) f1 f0 f0 false.
Definition there : calls := fine ++ [CStroke (M := mix64) (pen 4194304 5 50 10); CStroke (M := mix64) (pen 4194304 5 50 10)].
Definition facts (b : brush wall) (w : world wall) : bool :=
  match start toy_lib b w half_pixel with
  | Some (g, p) => feq (st b STATE_X) (f_of_Z 4194304) && feq (st b STATE_ACTUAL_RADIUS) f1 && flt (p_todo p) (flit 22 10) && flt f0 (p_todo p) && cycles 200 g p
  | None => false
  end.
Definition wall_after (cs : calls) (P : brush wall -> world wall -> bool) : bool :=
  match wall_session cs with Ok (Some (b, w)) => P b w | _ => false end.
Lemma wall_after_ok : forall cs P, wall_after cs P = true -> exists b w, wall_session cs = Ok (Some (b, w)) /\ P b w = true.
Proof. intros cs P H. unfold wall_after in H. destruct (wall_session cs) as [[[b w]|]| |]; try discriminate H. exists b, w. auto. Qed.

Theorem C34_endless_refuted : exists (b : brush wall) w, reachable toy_lib b /\
  feq (st b STATE_X) (f_of_Z 4194304) = true /\ feq (st b STATE_ACTUAL_RADIUS) f1 = true /\
  forall n, stroke_to toy_lib n b w half_pixel = Ok None.
Proof.
  destruct (wall_after_ok there facts ltac:(vm_compute; reflexivity)) as (b & w & S & H). apply wall_reachable in S.
  exists b, w. split; [exact S|]. unfold facts in H. destruct (start toy_lib b w half_pixel) as [[g p]|] eqn:St; [|discriminate H].
  apply andb_prop in H. destruct H as [H C]. apply andb_prop in H. destruct H as [H _]. apply andb_prop in H. destruct H as [H _]. apply andb_prop in H. destruct H as [X R].
  split; [exact X|]. split; [exact R|]. intros n. eapply start_dabs; [exact St|].
  assert (p = with_log p (p_log p)) as -> by (destruct p; reflexivity). apply cycles_endless with (k := 200%nat). exact C.
Qed.
Print Assumptions C34_endless_refuted.
