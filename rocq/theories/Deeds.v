(** The same event processing as [stroke_to] (Brush.v; mypaint-brush.c
    1300-1547), with a record of what was done with the event's time. *)
From Verif Require Import Base Arith Color Mapping Settings Spectral Brush BrushProofs.
Local Open Scope Z_scope.

Section Deeds.
  Context {M : mixed} (L : mathlib M) {E : env M}.
  Notation brush := (brush E).
  Notation world := (world E).

  (** an event is held back, or starts the stroke anew, or moves the pen with the
      dabs of [p] to the target [g] *)
  Inductive deed := Held | Restarted (time : dbl M) | Painted (p : progress E) (g : target M) (time : dbl M).

  Definition rest_deed (fuel : nat) (b : brush) (w : world) (t : tilt M) (e : event M) : outcome (option (bool * brush * world * deed)) :=
    let '(b, go) := skip_input L b (ev_x e) (ev_y e) (ev_dtime e) in
    match go with
    | None => Ok (Some (false, b, w, Held))
    | Some dtime =>
        let* (x, y, b) := track L b (ev_x e) (ev_y e) dtime in
        if nlt (nofZ 5) dtime || b_reset b then
          let* b := do_reset b x y (ev_pressure e) in Ok (Some (true, b, w, Restarted dtime))
        else
          let g := mkTarget x y (ev_pressure e) t (ev_viewzoom e) (ev_viewrotation e) (ev_barrel e) (ev_linear e) in
          let* r := paint_dabs L fuel b w g dtime in
          match r with
          | None => Ok None
          | Some p => let* (asked, b) := paint_rest L p g dtime in Ok (Some (asked, b, p_world p, Painted p g dtime))
          end
    end.
  (** at most two deeds: a long pause is handled as an event of its own *)
  Definition stroke_deeds (fuel : nat) (b : brush) (w : world) (e : event M) : outcome (option (bool * brush * world * list (event M * deed))) :=
    let* (t, e) := sanitise L e in
    let one b w t e ds :=
      let* r := rest_deed fuel b w t e in Ok (option_map (fun x => let '(a, b, w, d) := x in (a, b, w, ds ++ [(e, d)])) r) in
    if nlt (dec 100 1000) (ev_dtime e) && truthy (ev_pressure e) && neqb (st b STATE_PRESSURE) (nofZ 0) then
      let* (t', e') := sanitise L (silent_event e) in
      let* r := rest_deed fuel b w t' e' in
      match r with
      | None => Ok None
      | Some (_, b, w, d) => one b w t (with_dtime e (dec 1 10000)) [(e', d)]
      end
    else one b w t e [].

  Definition forget {A} (r : outcome (option (bool * brush * world * A))) : outcome (option (bool * brush * world)) :=
    let* x := r in Ok (option_map fst x).
  Lemma rest_forget : forall fuel b w t e, forget (rest_deed fuel b w t e) = stroke_rest L fuel b w t e.
  Proof.
    intros fuel b w t e. unfold rest_deed, stroke_rest. destruct (skip_input _ _ _ _ _) as [b1 [dt|]]; [|reflexivity].
    destruct (track L b1 (ev_x e) (ev_y e) dt) as [[[x y] b2]| |]; [|reflexivity..]. cbn [obind].
    match goal with |- context [if ?c then _ else _] => destruct c end.
    - destruct (do_reset b2 x y (ev_pressure e)) as [b3| |]; reflexivity.
    - unfold paint_to. cbv zeta. destruct (paint_dabs _ _ _ _ _ _) as [[p|]| |]; [|reflexivity..]. cbn [obind]. destruct (paint_rest _ _ _ _) as [[a b3]| |]; reflexivity.
  Qed.
  (** leaving out the record gives the engine *)
  Theorem deeds_forget : forall fuel b w e, forget (stroke_deeds fuel b w e) = stroke_to L fuel b w e.
  Proof.
    intros fuel b w e. unfold stroke_deeds, stroke_to. destruct (sanitise L e) as [[t e1]| |]; [|reflexivity..]. cbn [obind].
    match goal with |- context [if ?c then _ else _] => destruct c end.
    - destruct (sanitise L (silent_event e1)) as [[t2 e2]| |]; [|reflexivity..]. cbn [obind]. rewrite <- rest_forget. unfold forget at 2.
      destruct (rest_deed fuel b w t2 e2) as [[[[[a b1] w1] d]|]| |]; [|reflexivity..]. cbn [obind option_map fst]. rewrite <- rest_forget. unfold forget.
      destruct (rest_deed fuel b1 w1 t (with_dtime e1 (dec 1 10000))) as [[[[[a2 b2] w2] d2]|]| |]; reflexivity.
    - rewrite <- rest_forget. unfold forget. destruct (rest_deed fuel b w t e1) as [[[[[a2 b2] w2] d2]|]| |]; reflexivity.
  Qed.
End Deeds.
Arguments Held {M E}. Arguments Restarted {M E}. Arguments Painted {M E}. Arguments deed {M} E.
