(** Colours: what a program says about colours changes the colours of the dabs and
    nothing else (C57).

    Two programs start with the same brush and make the same calls, except that
    the values and curves of the colour settings may differ.  As long as the brush
    does not smudge, the dabs of the one are the dabs of the other in other
    colours: same number, places, sizes, shapes and opacities, same answers of the
    brush, same parts of the picture reported as changed. *)
From Verif Require Import Base F32 F32Proofs Arith Color Mapping Settings Spectral Brush BrushProofs BrushInst BrushToy RecolourProofs Queue Blend Rect Symmetry Mask Plumb Paint Easel.
From Verif Require Dab P_Dab P_Mask.
From Flocq Require Import IEEE754.BinarySingleNaN.
Local Open Scope Z_scope.

(** the settings about colour: color_h, color_s, color_v, restore_color and the
    five change_color settings *)
Definition about_colour (id : Z) : Prop :=
  In id (map Z.of_nat [SET_COLOR_H; SET_COLOR_S; SET_COLOR_V; SET_RESTORE_COLOR; SET_CHANGE_COLOR_H; SET_CHANGE_COLOR_L; SET_CHANGE_COLOR_HSL_S; SET_CHANGE_COLOR_V; SET_CHANGE_COLOR_HSV_S]).

(** the same call, or two calls that set something about colours *)
Inductive but_colours : call mix64 -> call mix64 -> Prop :=
| bc_same : forall c, but_colours c c
| bc_base : forall i j u v, about_colour i -> about_colour j -> but_colours (CBase i u) (CBase j v)
| bc_number : forall i j k l m n, about_colour i -> about_colour j -> but_colours (CMapN i k m) (CMapN j l n)
| bc_point : forall i j k l m n x y u v, about_colour i -> about_colour j -> but_colours (CMapPoint i k m x y) (CMapPoint j l n u v).

(** calls that do not switch smudging on *)
Definition leaves_smudging (c : call mix64) : Prop :=
  match c with CBase i _ | CMapN i _ _ | CMapPoint i _ _ _ _ => i <> Z.of_nat SET_SMUDGE | _ => True end.
(** a brush that does not smudge *)
Definition no_smudging {E : env mix64} (b : brush E) : Prop :=
  (exists v, get_base_value b (Z.of_nat SET_SMUDGE) = Ok v /\ feq v f0 = true) /\ is_constant b (Z.of_nat SET_SMUDGE) = Ok true.

(** dabs that differ in nothing but their colours *)
Definition but_colour (d1 d2 : dab mix64) : Prop :=
  dab_x d2 = dab_x d1 /\ dab_y d2 = dab_y d1 /\ dab_radius d2 = dab_radius d1 /\ dab_opaque d2 = dab_opaque d1 /\ dab_hardness d2 = dab_hardness d1 /\
  dab_softness d2 = dab_softness d1 /\ dab_alpha_eraser d2 = dab_alpha_eraser d1 /\ dab_aspect d2 = dab_aspect d1 /\ dab_angle d2 = dab_angle d1 /\
  dab_lock_alpha d2 = dab_lock_alpha d1 /\ dab_colorize d2 = dab_colorize d1 /\ dab_posterize d2 = dab_posterize d1 /\ dab_posterize_num d2 = dab_posterize_num d1 /\
  dab_paint d2 = dab_paint d1.

(** a program: calls on the brush, with the answers to the events; [None]: [n]
    dabs were not enough for one of them *)
Section Program.
  Context (L : mathlib mix64) {E : env mix64}.
  Definition perform_one (n : nat) (c : call mix64) (b : brush E) (w : world E) : outcome (option (list bool * brush E * world E)) :=
    match c with
    | CStroke e => let* r := stroke_to L n b w e in Ok (option_map (fun q => let '(a, b, w) := q in ([a], b, w)) r)
    | c => let* r := run_call L n b w c in Ok (option_map (fun q => let '(b, w) := q in ([], b, w)) r)
    end.
  Fixpoint perform (n : nat) (cs : list (call mix64)) (b : brush E) (w : world E) : outcome (option (list bool * brush E * world E)) :=
    match cs with
    | [] => Ok (Some ([], b, w))
    | c :: cs =>
        let* r := perform_one n c b w in
        match r with
        | None => Ok None
        | Some (a, b, w) => let* q := perform n cs b w in Ok (option_map (fun q => let '(l, b, w) := q in (a ++ l, b, w)) q)
        end
    end.
End Program.

(** surfaces whose answers to dabs do not depend on colours *)
Definition colour_blind {E : env mix64} (rel : e_surf E -> e_surf E -> Prop) : Prop :=
  forall s1 s2 d1 d2 p1 p2 s1' s2', rel s1 s2 -> but_colour d1 d2 -> e_draw E s1 d1 = Ok (p1, s1') -> e_draw E s2 d2 = Ok (p2, s2') -> p2 = p1 /\ rel s1' s2'.

(** *** proofs *)
Lemma about_is : forall i, about_colour i -> is_colour (Z.to_nat i) = true.
Proof. intros i H. unfold about_colour in H. cbn [map In] in H. repeat (destruct H as [<-|H]; [vm_compute; reflexivity|]). destruct H. Qed.
Lemma zero_is_off : @off mix64 f0.
Proof. split; vm_compute; reflexivity. Qed.
Lemma smudge_id : forall i, i <> Z.of_nat SET_SMUDGE -> Z.to_nat i <> SET_SMUDGE.
Proof. intros i H K. apply H. change SET_SMUDGE with (Z.to_nat (Z.of_nat SET_SMUDGE)) in K. revert H K. vm_compute (Z.of_nat SET_SMUDGE). intros. destruct i; cbn in K; lia. Qed.
Lemma feq_off : forall v : f32, feq v f0 = true -> @off mix64 v.
Proof.
  intros v H. assert (v = f0 \/ v = fopp f0) as [->| ->].
  { destruct v as [[|]|[|]| |[|] m e B]; try discriminate H; [right|left]; reflexivity. }
  - apply zero_is_off.
  - split; vm_compute; reflexivity.
Qed.
Lemma no_smudging_clean : forall {E : env mix64} (b : brush E), no_smudging b -> clean (b_settings b).
Proof.
  intros E b ((v & Ev & Zv) & Ec) m Em. unfold get_base_value, is_constant in *. apply obind_ok in Ev. destruct Ev as (m1 & E1 & Ev). apply obind_ok in Ec. destruct Ec as (m2 & E2 & Ec).
  apply setting_inv in E1. apply setting_inv in E2. rewrite Nat2Z.id in *. rewrite Em in E1, E2. injection E1 as <-. injection E2 as <-. apply Ok_inj in Ev. apply Ok_inj in Ec. subst v.
  split; [unfold mapping_is_constant in Ec; apply Z.eqb_eq in Ec; exact Ec|apply feq_off; exact Zv].
Qed.

Section C57.
  Context (L : mathlib mix64) {E : env mix64} (rel : e_surf E -> e_surf E -> Prop).
  Hypothesis blind : colour_blind rel.

  Lemma blind_dabs : forall s1 s2 d1 d2 p1 p2 s1' s2', rel s1 s2 -> same_dab d1 d2 -> e_draw E s1 d1 = Ok (p1, s1') -> e_draw E s2 d2 = Ok (p2, s2') -> p2 = p1 /\ rel s1' s2'.
  Proof. intros s1 s2 d1 d2 p1 p2 s1' s2' R S. apply (blind _ _ _ _ _ _ _ _ R). unfold same_dab in S. rewrite S. unfold but_colour. cbn. repeat split. Qed.

  Lemma perform_twin : forall n cs1 cs2 (b1 b2 : brush E) w1 w2 l1 l2 b1' b2' w1' w2', Forall2 but_colours cs1 cs2 -> Forall leaves_smudging cs1 ->
    twin b1 b2 -> clean (b_settings b1) -> rel (w_surf w1) (w_surf w2) ->
    perform L n cs1 b1 w1 = Ok (Some (l1, b1', w1')) -> perform L n cs2 b2 w2 = Ok (Some (l2, b2', w2')) ->
    l2 = l1 /\ twin b1' b2' /\ rel (w_surf w1') (w_surf w2').
  Proof.
    intros n cs1 cs2 b1 b2 w1 w2 l1 l2 b1' b2' w1' w2' F. revert b1 b2 w1 w2 l1 l2. induction F as [|c1 c2 cs1 cs2 Al F IH]; intros b1 b2 w1 w2 l1 l2 Ns T Cl R P1 P2; cbn [perform] in *.
    - apply Ok_inj in P1. apply Ok_inj in P2. injection P1 as <- <- <-. injection P2 as <- <- <-. auto.
    - pose proof (Forall_inv Ns) as N1. apply Forall_inv_tail in Ns.
      apply obind_ok in P1. destruct P1 as ([((a1, d1), v1)|] & Q1 & P1); [|discriminate P1]. apply obind_ok in P2. destruct P2 as ([((a2, d2), v2)|] & Q2 & P2); [|discriminate P2].
      assert (a2 = a1 /\ twin d1 d2 /\ clean (b_settings d1) /\ rel (w_surf v1) (w_surf v2)) as (-> & T' & Cl' & R').
      { assert ((forall e, c1 <> CStroke e) -> (forall e, c2 <> CStroke e) -> alike_calls c1 c2 -> no_smudge c1 -> a2 = a1 /\ twin d1 d2 /\ clean (b_settings d1) /\ rel (w_surf v1) (w_surf v2)) as K.
        { intros N1' N2' Al' Ns'.
          assert (a1 = [] /\ run_call L n b1 w1 c1 = Ok (Some (d1, v1))) as (-> & D1).
          { destruct c1; try (destruct (N1' _ eq_refl)); cbn [perform_one] in Q1; apply obind_ok in Q1; destruct Q1 as ([(zb, zw)|] & Er & Q1); try discriminate Q1; cbn [option_map] in Q1; apply Ok_inj in Q1; injection Q1 as <- <- <-; (split; [reflexivity|exact Er]). }
          assert (a2 = [] /\ run_call L n b2 w2 c2 = Ok (Some (d2, v2))) as (-> & D2).
          { destruct c2; try (destruct (N2' _ eq_refl)); cbn [perform_one] in Q2; apply obind_ok in Q2; destruct Q2 as ([(zb, zw)|] & Er & Q2); try discriminate Q2; cbn [option_map] in Q2; apply Ok_inj in Q2; injection Q2 as <- <- <-; (split; [reflexivity|exact Er]). }
          destruct (call_twin L zero_is_off rel blind_dabs n _ _ _ _ _ _ _ _ _ _ T Cl R Al' Ns' D1 D2) as (A & B & C). auto. }
        destruct Al as [c|i j u v C1 C2|i j k l m o C1 C2|i j k l m o x y u v C1 C2].
        - destruct c as [e| | |i v|i k m|i k m x y|i v|i k]; try (apply K; [discriminate|discriminate|apply al_same|first [exact Logic.I|apply smudge_id; exact N1]]).
          cbn [perform_one] in Q1, Q2. apply obind_ok in Q1. destruct Q1 as ([((z1, y1), x1)|] & G1 & Q1); [|discriminate Q1]. apply obind_ok in Q2. destruct Q2 as ([((z2, y2), x2)|] & G2 & Q2); [|discriminate Q2].
          cbn [option_map] in Q1, Q2. apply Ok_inj in Q1. apply Ok_inj in Q2. injection Q1 as <- <- <-. injection Q2 as <- <- <-.
          destruct (stroke_twin L zero_is_off rel blind_dabs n _ _ _ _ _ _ _ _ _ _ _ T Cl R G1 G2) as (-> & A & B & C). split; [reflexivity|]. split; [exact A|]. split; [rewrite C; exact Cl|exact B].
        - apply K; [discriminate|discriminate|apply al_base; apply about_is; assumption|apply smudge_id; exact N1].
        - apply K; [discriminate|discriminate|apply al_n; apply about_is; assumption|apply smudge_id; exact N1].
        - apply K; [discriminate|discriminate|apply al_point; apply about_is; assumption|apply smudge_id; exact N1]. }
      apply obind_ok in P1. destruct P1 as ([((m1, e1), x1)|] & G1 & P1); [|discriminate P1]. apply obind_ok in P2. destruct P2 as ([((m2, e2), x2)|] & G2 & P2); [|discriminate P2].
      cbn [option_map] in P1, P2. apply Ok_inj in P1. apply Ok_inj in P2. injection P1 as <- <- <-. injection P2 as <- <- <-.
      destruct (IH _ _ _ _ _ _ Ns T' Cl' R' G1 G2) as (-> & A & B). auto.
  Qed.

  (** *** The theorem: on any pair of surfaces whose answers do not depend on
      colours, the two programs get the same answers from the brush, leave the
      brush in the same state and the surfaces related. *)
  Theorem C57_colour_only : forall n cs1 cs2 (b : brush E) w1 w2 l1 l2 b1 b2 w1' w2',
    no_smudging b -> Forall leaves_smudging cs1 -> Forall2 but_colours cs1 cs2 -> rel (w_surf w1) (w_surf w2) ->
    perform L n cs1 b w1 = Ok (Some (l1, b1, w1')) -> perform L n cs2 b w2 = Ok (Some (l2, b2, w2')) ->
    l2 = l1 /\ (forall i, get_state b2 i = get_state b1 i) /\ total_painting_time b2 = total_painting_time b1 /\ rel (w_surf w1') (w_surf w2').
  Proof.
    intros n cs1 cs2 b w1 w2 l1 l2 b1 b2 w1' w2' Ns Ls F R P1 P2.
    destruct (perform_twin n cs1 cs2 b b w1 w2 l1 l2 b1 b2 w1' w2' F Ls (twin_refl b) (no_smudging_clean b Ns) R P1 P2) as (A & T & B).
    split; [exact A|]. split; [|split; [|exact B]].
    - intros i. unfold get_state. rewrite (twin_st _ _ _ T). reflexivity.
    - unfold total_painting_time. apply (twin_fields _ _ T).
  Qed.
End C57.

(** *** The dabs, on a surface that records what it is asked to draw.  [painted]:
    its answer to a dab, which must not depend on the colour. *)
Definition recorder (rng : Type) (next : rng -> outcome (car (dbl mix64) * rng)) (painted : dab mix64 -> bool) : env mix64 :=
  mkEnv mix64 rng next (list (dab mix64)) (fun l d => Ok (painted d, l ++ [d])) (fun l _ _ _ _ => Ok ((f0, f0, f0, f0) : rgba mix64, l)).

Theorem C57_dabs : forall (L : mathlib mix64) rng next painted n cs1 cs2 (b : brush (recorder rng next painted)) mix l1 l2 b1 b2 w1 w2,
  (forall d1 d2, but_colour d1 d2 -> painted d2 = painted d1) -> no_smudging b -> Forall leaves_smudging cs1 -> Forall2 but_colours cs1 cs2 ->
  perform L n cs1 b (mkWorld (E := recorder rng next painted) [] mix) = Ok (Some (l1, b1, w1)) ->
  perform L n cs2 b (mkWorld (E := recorder rng next painted) [] mix) = Ok (Some (l2, b2, w2)) ->
  l2 = l1 /\ Forall2 but_colour (w_surf w1) (w_surf w2).
Proof.
  intros L rng next painted n cs1 cs2 b mix l1 l2 b1 b2 w1 w2 Hp Ns Ls F P1 P2.
  assert (colour_blind (E := recorder rng next painted) (Forall2 but_colour)) as Bl.
  { intros s1 s2 d1 d2 p1 p2 s1' s2' R D E1 E2. cbn [recorder e_draw] in E1, E2. apply Ok_inj in E1. apply Ok_inj in E2. injection E1 as <- <-. injection E2 as <- <-. split; [apply Hp; exact D|]. apply Forall2_app; [exact R|]. constructor; [exact D|constructor]. }
  set (w0 := mkWorld (E := recorder rng next painted) [] mix) in *.
  assert (Forall2 but_colour (w_surf w0) (w_surf w0)) as R0 by constructor.
  destruct (C57_colour_only L (E := recorder rng next painted) (Forall2 but_colour) Bl n cs1 cs2 b w0 w0 _ _ _ _ _ _ Ns Ls F R0 P1 P2) as (A & _ & _ & B). auto.
Qed.

(** *** A tiled surface: the parts of the picture it reports as changed.

    A painting program on the brush and the tiled surface (Easel.v); what it is
    told at the end of every operation, in order. *)
Section Reports.
  Context (trig : Mask.trig_oracle) (G : trigops num32) (L : mathlib mix64) (rng : Type) (next : rng -> outcome (f64 * rng))
          (get : Dab.tsurf -> f32 -> f32 -> f32 -> f32 -> outcome (rgba mix64 * Dab.tsurf)).
  Local Notation easel := (Easel.easel G rng next get).

  Fixpoint reports (n : nat) (l : list action) (b : brush easel) (w : world easel) : outcome (option (list (option (list rect * Z)))) :=
    match l with
    | [] => Ok (Some [])
    | End can roi :: l =>
        let* (ts, r) := Dab.end_atomic trig paint_mix can roi (w_surf w) in
        let* q := reports n l b (mkWorld (E := easel) ts (w_mix w)) in Ok (option_map (cons r) q)
    | a :: l =>
        let* r := Easel.act trig G L rng next get n (b, w) a in
        match r with None => Ok None | Some (b, w) => reports n l b w end
    end.

  Inductive but_colours' : action -> action -> Prop :=
  | ba_same : forall a, a <> LoadDefaults -> but_colours' a a
  | ba_base : forall i j u v, about_colour i -> about_colour j -> but_colours' (SetBase i u) (SetBase j v)
  | ba_number : forall i j k l m n, about_colour i -> about_colour j -> but_colours' (SetPoints i k m) (SetPoints j l n)
  | ba_point : forall i j k l m n x y u v, about_colour i -> about_colour j -> but_colours' (SetPoint i k m x y) (SetPoint j l n u v).
  Definition leaves_smudging' (a : action) : Prop :=
    match a with SetBase i _ | SetPoints i _ _ | SetPoint i _ _ _ _ => i <> Z.of_nat SET_SMUDGE | _ => True end.

  Definition same_boxes (t1 t2 : Dab.tsurf) : Prop :=
    Dab.ts_boxes t2 = Dab.ts_boxes t1 /\ Dab.ts_num t2 = Dab.ts_num t1 /\ Dab.ts_dirtied t2 = Dab.ts_dirtied t1 /\ Dab.ts_sym t2 = Dab.ts_sym t1.
  Definition same_shape (d1 d2 : Dab.dab) : Prop :=
    d2 = Dab.mkDab (Dab.d_x d1) (Dab.d_y d1) (Dab.d_radius d1) (Dab.d_r d2) (Dab.d_g d2) (Dab.d_b d2) (Dab.d_opaque d1) (Dab.d_hard d1) (Dab.d_soft d1)
      (Dab.d_alpha d1) (Dab.d_aspect d1) (Dab.d_angle d1) (Dab.d_lock d1) (Dab.d_colorize d1) (Dab.d_poster d1) (Dab.d_pnum d1) (Dab.d_paint d1).

  Lemma op_shape : forall d1 d2 o1 o2, same_shape d1 d2 -> Dab.prepare_op d1 = Ok o1 -> Dab.prepare_op d2 = Ok o2 ->
    match o1, o2 with None, None => True | Some o1, Some o2 => Dab.o_x o2 = Dab.o_x o1 /\ Dab.o_y o2 = Dab.o_y o1 /\ Dab.o_radius o2 = Dab.o_radius o1 | _, _ => False end.
  Proof.
    intros d1 d2 o1 o2 S P1 P2. rewrite S in P2. unfold Dab.prepare_op in P1, P2. cbv zeta in P1, P2.
    cbn [Dab.d_x Dab.d_y Dab.d_radius Dab.d_r Dab.d_g Dab.d_b Dab.d_opaque Dab.d_hard Dab.d_soft Dab.d_alpha Dab.d_aspect Dab.d_angle Dab.d_lock Dab.d_colorize Dab.d_poster Dab.d_pnum Dab.d_paint] in P2.
    apply obind_ok in P1. destruct P1 as (z & Ez & P1). rewrite Ez in P2. cbn [obind] in P2.
    destruct (flt _ _ || _ || _ || _) in P1, P2.
    - apply Ok_inj in P1. apply Ok_inj in P2. subst o1 o2. exact Logic.I.
    - apply obind_ok in P1. destruct P1 as (r1 & _ & P1). apply obind_ok in P1. destruct P1 as (g1 & _ & P1). apply obind_ok in P1. destruct P1 as (c1 & _ & P1).
      apply obind_ok in P2. destruct P2 as (r2 & _ & P2). apply obind_ok in P2. destruct P2 as (g2 & _ & P2). apply obind_ok in P2. destruct P2 as (c2 & _ & P2).
      apply Ok_inj in P1. apply Ok_inj in P2. subst o1 o2. cbn [Dab.o_x Dab.o_y Dab.o_radius]. auto.
  Qed.
  Lemma internal_shape : forall t1 t2 d1 d2 i t1' t2' m1 m2, same_boxes t1 t2 -> same_shape d1 d2 ->
    Dab.draw_dab_internal t1 d1 i = Ok (t1', m1) -> Dab.draw_dab_internal t2 d2 i = Ok (t2', m2) -> m2 = m1 /\ same_boxes t1' t2'.
  Proof.
    intros t1 t2 d1 d2 i t1' t2' m1 m2 B S P1 P2. unfold Dab.draw_dab_internal in P1, P2.
    apply obind_ok in P1. destruct P1 as (o1 & E1 & P1). apply obind_ok in P2. destruct P2 as (o2 & E2 & P2). pose proof (op_shape _ _ _ _ S E1 E2) as O.
    destruct o1 as [o1|], o2 as [o2|]; try contradiction O.
    - destruct O as (X & Y & R). destruct B as (B1 & B2 & B3 & B4).
      apply obind_ok in P1. destruct P1 as (l1 & _ & P1). apply obind_ok in P1. destruct P1 as (s1 & _ & P1). apply obind_ok in P1. destruct P1 as (r1 & R1 & P1). apply obind_ok in P1. destruct P1 as (q1 & Q1 & P1).
      apply obind_ok in P2. destruct P2 as (l2 & _ & P2). apply obind_ok in P2. destruct P2 as (s2 & _ & P2). apply obind_ok in P2. destruct P2 as (r2 & R2 & P2). apply obind_ok in P2. destruct P2 as (q2 & Q2 & P2).
      rewrite B1, R1 in R2. apply Ok_inj in R2. subst r2. rewrite X, Y, R, Q1 in Q2. apply Ok_inj in Q2. subst q2.
      apply Ok_inj in P1. apply Ok_inj in P2. injection P1 as <- <-. injection P2 as <- <-. split; [reflexivity|]. unfold same_boxes. cbn [Dab.ts_boxes Dab.ts_num Dab.ts_dirtied Dab.ts_sym]. rewrite B1. auto.
    - apply Ok_inj in P1. apply Ok_inj in P2. injection P1 as <- <-. injection P2 as <- <-. auto.
  Qed.
  Lemma draw_shape : forall t1 t2 d1 d2 t1' t2' m1 m2, same_boxes t1 t2 -> same_shape d1 d2 ->
    Dab.draw_dab G t1 d1 = Ok (t1', m1) -> Dab.draw_dab G t2 d2 = Ok (t2', m2) -> m2 = m1 /\ same_boxes t1' t2'.
  Proof.
    intros t1 t2 d1 d2 t1' t2' m1 m2 B S P1 P2. unfold Dab.draw_dab in P1, P2.
    apply obind_ok in P1. destruct P1 as ((u1, k1) & E1 & P1). apply obind_ok in P2. destruct P2 as ((u2, k2) & E2 & P2).
    destruct (internal_shape _ _ _ _ _ _ _ _ _ B S E1 E2) as (-> & B').
    assert (forall n a c, same_boxes a c -> same_boxes (Dab.set_dirtied a (Z.min (Dab.ts_num a) n)) (Dab.set_dirtied c (Z.min (Dab.ts_num c) n))) as K.
    { intros n a c (C1 & C2 & C3 & C4). unfold same_boxes, Dab.set_dirtied. cbn [Dab.ts_boxes Dab.ts_num Dab.ts_dirtied Dab.ts_sym]. rewrite C2. auto. }
    destruct k1.
    - apply obind_ok in P1. destruct P1 as ((ex, us) & X1 & P1). apply obind_ok in P2. destruct P2 as ((ex2, us2) & X2 & P2).
      assert (Dab.d_x d2 = Dab.d_x d1 /\ Dab.d_y d2 = Dab.d_y d1 /\ Dab.d_angle d2 = Dab.d_angle d1) as (Ex & Ey & Ea) by (rewrite S; auto).
      rewrite Ex, Ey, Ea in X2. destruct B' as (B1 & B2 & B3 & B4). rewrite B4, B2, X1 in X2. apply Ok_inj in X2. injection X2 as <- <-.
      apply obind_ok in P1. destruct P1 as (v1 & F1 & P1). apply obind_ok in P2. destruct P2 as (v2 & F2 & P2).
      assert (same_boxes v1 v2) as V.
      { assert (same_boxes u1 u2) as U by (unfold same_boxes; auto). clear E1 E2 X1 B1 B2 B3 B4 P1 P2. revert u1 u2 U F1 F2. induction ex as [|e ex IH]; intros u1 u2 U F1 F2; cbn [ofold] in F1, F2.
        - apply Ok_inj in F1. apply Ok_inj in F2. subst v1 v2. exact U.
        - apply obind_ok in F1. destruct F1 as (y1 & Y1 & F1). apply obind_ok in F2. destruct F2 as (y2 & Y2 & F2).
          apply obind_ok in Y1. destruct Y1 as ((z1, n1) & Z1 & Y1). apply obind_ok in Y2. destruct Y2 as ((z2, n2) & Z2 & Y2). apply Ok_inj in Y1. apply Ok_inj in Y2. cbn [fst] in Y1, Y2. subst y1 y2.
          assert (same_shape (Dab.moved d1 (e_x e) (e_y e) (e_angle e)) (Dab.moved d2 (e_x e) (e_y e) (e_angle e))) as S' by (rewrite S; reflexivity).
          destruct (internal_shape _ _ _ _ _ _ _ _ _ U S' Z1 Z2) as (_ & W). exact (IH _ _ W F1 F2). }
      apply Ok_inj in P1. apply Ok_inj in P2. injection P1 as <- <-. injection P2 as <- <-. split; [reflexivity|apply K; exact V].
    - apply Ok_inj in P1. apply Ok_inj in P2. injection P1 as <- <-. injection P2 as <- <-. split; [reflexivity|apply K; exact B'].
  Qed.
  Lemma tiled_blind : colour_blind (E := easel) same_boxes.
  Proof.
    intros s1 s2 d1 d2 p1 p2 s1' s2' B D E1 E2. cbn [Easel.easel e_draw] in E1, E2. apply obind_ok in E1. destruct E1 as ((u1, m1) & E1 & H1). apply obind_ok in E2. destruct E2 as ((u2, m2) & E2 & H2).
    apply Ok_inj in H1. apply Ok_inj in H2. injection H1 as <- <-. injection H2 as <- <-. refine (draw_shape _ _ _ _ _ _ _ _ B _ E1 E2).
    destruct D as (A1 & A2 & A3 & A4 & A5 & A6 & A7 & A8 & A9 & A10 & A11 & A12 & A13 & A14). unfold same_shape, handed_on.
    cbn [Dab.d_x Dab.d_y Dab.d_radius Dab.d_r Dab.d_g Dab.d_b Dab.d_opaque Dab.d_hard Dab.d_soft Dab.d_alpha Dab.d_aspect Dab.d_angle Dab.d_lock Dab.d_colorize Dab.d_poster Dab.d_pnum Dab.d_paint].
    rewrite A1, A2, A3, A4, A5, A6, A7, A8, A9, A10, A11, A12, A13, A14. reflexivity.
  Qed.

  Lemma end_shape : forall can roi t1 t2 t1' t2' r1 r2, same_boxes t1 t2 -> Dab.end_atomic trig paint_mix can roi t1 = Ok (t1', r1) -> Dab.end_atomic trig paint_mix can roi t2 = Ok (t2', r2) -> r2 = r1 /\ same_boxes t1' t2'.
  Proof.
    intros can roi t1 t2 t1' t2' r1 r2 (B1 & B2 & B3 & B4) P1 P2. unfold Dab.end_atomic in P1, P2. apply obind_ok in P1. destruct P1 as (s1 & _ & P1). apply obind_ok in P2. destruct P2 as (s2 & _ & P2). cbv zeta in P1, P2.
    cbn [Dab.ts_boxes Dab.ts_num Dab.ts_dirtied Dab.ts_sym] in P1, P2. destruct roi as [(rects, cap)|].
    - apply obind_ok in P1. destruct P1 as (q1 & Q1 & P1). apply obind_ok in P2. destruct P2 as (q2 & Q2 & P2). rewrite B1, B3, Q1 in Q2. apply Ok_inj in Q2. subst q2.
      apply Ok_inj in P1. apply Ok_inj in P2. injection P1 as <- <-. injection P2 as <- <-. split; [reflexivity|]. unfold same_boxes. cbn. auto.
    - apply Ok_inj in P1. apply Ok_inj in P2. injection P1 as <- <-. injection P2 as <- <-. split; [reflexivity|]. unfold same_boxes. cbn. auto.
  Qed.
  Lemma sstep_shape : forall e t1 t2 t1' t2' r1 r2, (forall d, e <> Dab.SDab d) -> same_boxes t1 t2 -> Dab.sstep trig paint_mix G t1 e = Ok (t1', r1) -> Dab.sstep trig paint_mix G t2 e = Ok (t2', r2) -> same_boxes t1' t2'.
  Proof.
    intros e t1 t2 t1' t2' r1 r2 Nd B P1 P2. destruct e as [a cx cy an ty li|k1 k2|d|cw cr rows|can roi]; cbn [Dab.sstep] in P1, P2.
    - apply Ok_inj in P1. apply Ok_inj in P2. injection P1 as <- _. injection P2 as <- _. destruct B as (B1 & B2 & B3 & B4). unfold same_boxes. cbn [Dab.ts_boxes Dab.ts_num Dab.ts_dirtied Dab.ts_sym]. rewrite B4. auto.
    - apply obind_ok in P1. destruct P1 as (u1 & U1 & P1). apply obind_ok in P2. destruct P2 as (u2 & U2 & P2). apply Ok_inj in P1. apply Ok_inj in P2. injection P1 as <- _. injection P2 as <- _.
      destruct B as (B1 & B2 & B3 & B4). unfold Dab.begin_atomic in U1, U2. rewrite B1, B2, B3, B4 in U2. apply obind_ok in U1. destruct U1 as (sy & Es & U1). rewrite Es in U2. cbn [obind] in U2.
      unfold Dab.prepare_bounding_boxes in U1, U2. cbv zeta in U1, U2. cbn [Dab.ts_boxes Dab.ts_num Dab.ts_dirtied Dab.ts_sym Dab.ts_sf] in U1, U2.
      apply obind_ok in U1. destruct U1 as (de & Ed & U1). rewrite Ed in U2. cbn [obind] in U2. apply obind_ok in U1. destruct U1 as (((bx, nu), di) & Eb & U1). rewrite Eb in U2. cbn [obind] in U2.
      apply obind_ok in U1. destruct U1 as (bx' & Ebx & U1). rewrite Ebx in U2. cbn [obind] in U2. apply Ok_inj in U1. apply Ok_inj in U2. subst u1 u2. unfold same_boxes. cbn. auto.
    - destruct (Nd d eq_refl).
    - apply obind_ok in P1. destruct P1 as ((u1, g1) & _ & P1). apply obind_ok in P2. destruct P2 as ((u2, g2) & _ & P2). apply Ok_inj in P1. apply Ok_inj in P2. injection P1 as <- _. injection P2 as <- _. exact B.
    - apply obind_ok in P1. destruct P1 as ((u1, g1) & U1 & P1). apply obind_ok in P2. destruct P2 as ((u2, g2) & U2 & P2). apply Ok_inj in P1. apply Ok_inj in P2. injection P1 as <- _. injection P2 as <- _.
      exact (proj2 (end_shape _ _ _ _ _ _ _ _ B U1 U2)).
  Qed.

  Lemma act_twin : forall n a1 a2 (b1 b2 : brush easel) (w1 w2 : world easel) b1' b2' w1' w2',
    but_colours' a1 a2 -> leaves_smudging' a1 -> twin b1 b2 -> clean (b_settings b1) -> same_boxes (w_surf w1) (w_surf w2) ->
    Easel.act trig G L rng next get n (b1, w1) a1 = Ok (Some (b1', w1')) -> Easel.act trig G L rng next get n (b2, w2) a2 = Ok (Some (b2', w2')) ->
    twin b1' b2' /\ clean (b_settings b1') /\ same_boxes (w_surf w1') (w_surf w2').
  Proof.
    intros n a1 a2 b1 b2 w1 w2 b1' b2' w1' w2' Al Ls T Cl B P1 P2.
    pose proof (fun c1 c2 => call_twin (E := easel) L zero_is_off same_boxes (blind_dabs (E := easel) same_boxes tiled_blind) n b1 b2 w1 w2 c1 c2 b1' b2' w1' w2' T Cl B) as K.
    destruct Al as [a Na|i j u v C1 C2|i j k l m o C1 C2|i j k l m o x y u v C1 C2]; cbn [leaves_smudging'] in Ls.
    - destruct a as [e| | | |i v|i k m|i k m x y|ac cx cy an ty li|k1 k2|cw cr rows|can roi]; try (destruct (Na eq_refl));
        try (refine (K _ _ (al_same _) _ P1 P2); first [exact Logic.I|apply smudge_id; exact Ls]);
        cbn [Easel.act brush_call surface_call] in P1, P2; apply obind_ok in P1; destruct P1 as ((u1, g1) & U1 & P1); apply obind_ok in P2; destruct P2 as ((u2, g2) & U2 & P2);
        apply Ok_inj in P1; apply Ok_inj in P2; injection P1 as <- <-; injection P2 as <- <-; (split; [exact T|]); (split; [exact Cl|]); cbn [w_surf];
        refine (sstep_shape _ _ _ _ _ _ _ _ B U1 U2); discriminate.
    - refine (K _ _ (al_base _ _ _ _ _ _) _ P1 P2); [apply about_is; exact C1|apply about_is; exact C2|apply smudge_id; exact Ls].
    - refine (K _ _ (al_n _ _ _ _ _ _ _ _) _ P1 P2); [apply about_is; exact C1|apply about_is; exact C2|apply smudge_id; exact Ls].
    - refine (K _ _ (al_point _ _ _ _ _ _ _ _ _ _ _ _) _ P1 P2); [apply about_is; exact C1|apply about_is; exact C2|apply smudge_id; exact Ls].
  Qed.

  Lemma reports_twin : forall n l1 l2 (b1 b2 : brush easel) (w1 w2 : world easel) r1 r2, Forall2 but_colours' l1 l2 -> Forall leaves_smudging' l1 ->
    twin b1 b2 -> clean (b_settings b1) -> same_boxes (w_surf w1) (w_surf w2) ->
    reports n l1 b1 w1 = Ok (Some r1) -> reports n l2 b2 w2 = Ok (Some r2) -> r2 = r1.
  Proof.
    intros n l1 l2 b1 b2 w1 w2 r1 r2 F. revert b1 b2 w1 w2 r1 r2. induction F as [|a1 a2 l1 l2 Al F IH]; intros b1 b2 w1 w2 r1 r2 Ls T Cl B P1 P2.
    - cbn [reports] in P1, P2. apply Ok_inj in P1. apply Ok_inj in P2. injection P1 as <-. injection P2 as <-. reflexivity.
    - pose proof (Forall_inv Ls) as L1. apply Forall_inv_tail in Ls.
      assert ((exists can roi, a1 = End can roi /\ a2 = End can roi) \/ ((forall can roi, a1 <> End can roi) /\ (forall can roi, a2 <> End can roi))) as [(can & roi & -> & ->)|(N1 & N2)].
      { destruct Al as [a Na| | |]; [destruct a; first [left; eexists; eexists; split; reflexivity|right; split; discriminate]|right; split; discriminate..]. }
      + cbn [reports] in P1, P2. apply obind_ok in P1. destruct P1 as ((u1, g1) & U1 & P1). apply obind_ok in P2. destruct P2 as ((u2, g2) & U2 & P2).
        destruct (end_shape _ _ _ _ _ _ _ _ B U1 U2) as (-> & B').
        apply obind_ok in P1. destruct P1 as ([q1|] & Q1 & P1); [|discriminate P1]. apply obind_ok in P2. destruct P2 as ([q2|] & Q2 & P2); [|discriminate P2]. cbn [option_map] in P1, P2.
        apply Ok_inj in P1. apply Ok_inj in P2. injection P1 as <-. injection P2 as <-. f_equal. exact (IH _ _ _ _ _ _ Ls T Cl (B' : same_boxes (w_surf (mkWorld (E := easel) u1 _)) (w_surf (mkWorld (E := easel) u2 _))) Q1 Q2).
      + assert (forall a l (b : brush easel) w r, (forall can roi, a <> End can roi) -> reports n (a :: l) b w = Ok (Some r) ->
          exists b' w', Easel.act trig G L rng next get n (b, w) a = Ok (Some (b', w')) /\ reports n l b' w' = Ok (Some r)) as K.
        { intros a l b w r Na P. destruct a; try (destruct (Na _ _ eq_refl)); cbn [reports] in P; apply obind_ok in P; destruct P as ([(b', w')|] & E & P); try discriminate P; exists b', w'; (split; [exact E|exact P]). }
        destruct (K _ _ _ _ _ N1 P1) as (d1 & v1 & A1 & R1). destruct (K _ _ _ _ _ N2 P2) as (d2 & v2 & A2 & R2).
        destruct (act_twin _ _ _ _ _ _ _ _ _ _ _ Al L1 T Cl B A1 A2) as (T' & Cl' & B'). exact (IH _ _ _ _ _ _ Ls T' Cl' B' R1 R2).
  Qed.

  (** *** The same rectangles are reported, operation by operation *)
  Theorem C57_reports : forall n l1 l2 (b : brush easel) (w : world easel) r1 r2,
    no_smudging b -> Forall leaves_smudging' l1 -> Forall2 but_colours' l1 l2 ->
    reports n l1 b w = Ok (Some r1) -> reports n l2 b w = Ok (Some r2) -> r2 = r1.
  Proof.
    intros n l1 l2 b w r1 r2 Ns Ls F P1 P2. refine (reports_twin n l1 l2 b b w w r1 r2 F Ls (twin_refl b) (no_smudging_clean b Ns) _ P1 P2). unfold same_boxes. auto.
  Qed.
End Reports.

(** *** Examples: the default brush strokes once in the bright colour (0.1, 1, 1)
    and once in a muted one whose brightness changes from dab to dab. *)
Definition dots : list (event mix64) := [pen 10 10 50 10; pen 13 10 50 10; pen 15 10 50 10].
Definition bright : list (call mix64) := [set_base SET_COLOR_H (flit 1 10); set_base SET_COLOR_S f1; set_base SET_COLOR_V f1].
Definition muted : list (call mix64) := [set_base SET_COLOR_H (flit 7 10); set_base SET_COLOR_S (flit 1 2); set_base SET_CHANGE_COLOR_V (flit 1 2)].
Definition stroked (cs : list (call mix64)) : list (call mix64) := cs ++ map (fun e => CStroke e) dots.

Definition smudge_free {E : env mix64} (b : brush E) : bool :=
  match get_base_value b (Z.of_nat SET_SMUDGE) with Ok v => feq v f0 | _ => false end &&
  match is_constant b (Z.of_nat SET_SMUDGE) with Ok c => c | _ => false end.
Lemma smudge_free_ok : forall {E : env mix64} (b : brush E), smudge_free b = true -> no_smudging b.
Proof.
  intros E b H. unfold smudge_free in H. apply andb_prop in H. destruct H as (H1 & H2). split.
  - destruct (get_base_value b _) as [v| |]; try discriminate H1. exists v. auto.
  - destruct (is_constant b _) as [c| |]; try discriminate H2. rewrite H2. reflexivity.
Qed.

Definition half : unit -> outcome (car (dbl mix64) * unit) := fun g => Ok (dlit 1 2, g).
Definition paper : env mix64 := recorder unit half (fun _ => true).
Definition loaded (E : env mix64) (g : e_rng E) : outcome (brush E) := let* b := brush_new (E := E) toy_lib 0 g [] [] 0 0 in from_defaults toy_lib b.
Definition clean_paper : world paper := mkWorld (E := paper) [] ((f0, f0, f0, f0) : rgba mix64).
Definition both (cs1 cs2 : list (call mix64)) (P : list (dab mix64) -> list (dab mix64) -> bool) : bool :=
  match loaded paper tt with
  | Ok b => smudge_free b &&
      match perform toy_lib 20 cs1 b clean_paper, perform toy_lib 20 cs2 b clean_paper with
      | Ok (Some (_, _, w1)), Ok (Some (_, _, w2)) => P (w_surf w1) (w_surf w2)
      | _, _ => false
      end
  | _ => false
  end.
Lemma both_ok : forall cs1 cs2 P, both cs1 cs2 P = true -> exists b l1 b1 w1 l2 b2 w2, loaded paper tt = Ok b /\ no_smudging b /\
  perform toy_lib 20 cs1 b clean_paper = Ok (Some (l1, b1, w1)) /\ perform toy_lib 20 cs2 b clean_paper = Ok (Some (l2, b2, w2)) /\ P (w_surf w1) (w_surf w2) = true.
Proof.
  intros cs1 cs2 P. unfold both. destruct (loaded paper tt) as [b| |]; intros T; try discriminate T. apply andb_prop in T. destruct T as (S & T). apply smudge_free_ok in S.
  destruct (perform toy_lib 20 cs1 b clean_paper) as [[((l1, b1), w1)|]| |] eqn:E1; try discriminate T.
  destruct (perform toy_lib 20 cs2 b clean_paper) as [[((l2, b2), w2)|]| |] eqn:E2; try discriminate T.
  exists b, l1, b1, w1, l2, b2, w2. split; [reflexivity|]. split; [exact S|]. split; [exact E1|]. split; [exact E2|exact T].
Qed.
Definition other_colour (d1 d2 : dab mix64) : bool := negb (feq (dab_r d1) (dab_r d2) && feq (dab_g d1) (dab_g d2) && feq (dab_b d1) (dab_b d2)).
Lemma two_colours : both (stroked bright) (stroked muted) (fun l1 l2 => (2 <=? Z.of_nat (length l1)) && forallb (fun p => other_colour (fst p) (snd p)) (combine l1 l2)) = true.
Proof. vm_compute. reflexivity. Qed.
Lemma recoloured : Forall2 but_colours (stroked bright) (stroked muted) /\ Forall leaves_smudging (stroked bright).
Proof.
  split; cbn.
  - repeat (constructor; [first [apply bc_same|apply bc_base; unfold about_colour; vm_compute; tauto]|]). constructor.
  - repeat (constructor; [first [exact Logic.I|intros X; vm_compute in X; discriminate X]|]). constructor.
Qed.
Example C57_case : exists (b : brush paper) l1 b1 w1 l2 b2 w2, no_smudging b /\ Forall leaves_smudging (stroked bright) /\ Forall2 but_colours (stroked bright) (stroked muted) /\
  perform toy_lib 20 (stroked bright) b clean_paper = Ok (Some (l1, b1, w1)) /\ perform toy_lib 20 (stroked muted) b clean_paper = Ok (Some (l2, b2, w2)) /\
  2 <= Z.of_nat (length (w_surf w1)) /\ (forall d1 d2, In (d1, d2) (combine (w_surf w1) (w_surf w2)) -> other_colour d1 d2 = true).
Proof.
  destruct (both_ok _ _ _ two_colours) as (b & l1 & b1 & w1 & l2 & b2 & w2 & _ & S & E1 & E2 & T). destruct recoloured as (R1 & R2). apply andb_prop in T. destruct T as (T1 & T2).
  exists b, l1, b1, w1, l2, b2, w2. split; [exact S|]. split; [exact R2|]. split; [exact R1|]. split; [exact E1|]. split; [exact E2|]. split; [apply Z.leb_le; exact T1|].
  intros d1 d2 I. exact (proj1 (forallb_forall _ _) T2 _ I).
Qed.

(** on a tiled surface *)
Definition no_colour (t : Dab.tsurf) (x y r p : f32) : outcome (rgba mix64 * Dab.tsurf) := UB.
Definition canvas : env mix64 := Easel.easel P_Dab.no_turn unit half no_colour.
Definition operation (cs : list action) : list action := cs ++ Begin true true :: map Pen dots ++ [End (fun _ => false) (Some ([rect0], 1))].
Definition bright' : list action := [SetBase (Z.of_nat SET_COLOR_H) (flit 1 10); SetBase (Z.of_nat SET_COLOR_V) f1].
Definition muted' : list action := [SetBase (Z.of_nat SET_COLOR_H) (flit 7 10); SetBase (Z.of_nat SET_CHANGE_COLOR_V) (flit 1 2)].
Definition reported (l1 l2 : list action) (P : list (option (list rect * Z)) -> bool) : bool :=
  match loaded canvas tt, Dab.tiled_surface_init P_Dab.no_turn true 0 P_Dab.blank with
  | Ok b, Ok ts => smudge_free b &&
      match reports P_Mask.flat P_Dab.no_turn toy_lib unit half no_colour 20 l1 b (mkWorld (E := canvas) ts ((f0, f0, f0, f0) : rgba mix64)),
            reports P_Mask.flat P_Dab.no_turn toy_lib unit half no_colour 20 l2 b (mkWorld (E := canvas) ts ((f0, f0, f0, f0) : rgba mix64)) with
      | Ok (Some r1), Ok (Some _) => P r1
      | _, _ => false
      end
  | _, _ => false
  end.
Lemma reported_ok : forall l1 l2 P, reported l1 l2 P = true -> exists (b : brush canvas) w r1 r2, no_smudging b /\
  reports P_Mask.flat P_Dab.no_turn toy_lib unit half no_colour 20 l1 b w = Ok (Some r1) /\ reports P_Mask.flat P_Dab.no_turn toy_lib unit half no_colour 20 l2 b w = Ok (Some r2) /\ P r1 = true.
Proof.
  intros l1 l2 P. unfold reported. destruct (loaded canvas tt) as [b| |]; intros T; try discriminate T.
  destruct (Dab.tiled_surface_init P_Dab.no_turn true 0 P_Dab.blank) as [ts| |]; try discriminate T. apply andb_prop in T. destruct T as (S & T). apply smudge_free_ok in S.
  set (w := mkWorld (E := canvas) ts _) in *. 
  destruct (reports P_Mask.flat P_Dab.no_turn toy_lib unit half no_colour 20 l1 b w) as [[r1|]| |] eqn:E1; try discriminate T.
  destruct (reports P_Mask.flat P_Dab.no_turn toy_lib unit half no_colour 20 l2 b w) as [[r2|]| |] eqn:E2; try discriminate T.
  exists b, w, r1, r2. split; [exact S|]. split; [exact E1|]. split; [exact E2|exact T].
Qed.
Lemma something_reported : reported (operation bright') (operation muted') (fun r => match r with [Some ([q], 1)] => (0 <? rw q) && (0 <? rh q) | _ => false end) = true.
Proof. vm_compute. reflexivity. Qed.
Example C57_reports_case : exists (b : brush canvas) w r1 r2, no_smudging b /\ Forall leaves_smudging' (operation bright') /\ Forall2 but_colours' (operation bright') (operation muted') /\
  reports P_Mask.flat P_Dab.no_turn toy_lib unit half no_colour 20 (operation bright') b w = Ok (Some r1) /\
  reports P_Mask.flat P_Dab.no_turn toy_lib unit half no_colour 20 (operation muted') b w = Ok (Some r2) /\
  match r1 with [Some ([q], 1)] => (0 <? rw q) && (0 <? rh q) | _ => false end = true.
Proof.
  destruct (reported_ok _ _ _ something_reported) as (b & w & r1 & r2 & S & E1 & E2 & T). exists b, w, r1, r2. split; [exact S|]. split; [|split; [|split; [exact E1|split; [exact E2|exact T]]]]; cbn.
  - repeat (constructor; [first [exact Logic.I|intros X; vm_compute in X; discriminate X]|]). constructor.
  - repeat (constructor; [first [apply ba_same; discriminate|apply ba_base; unfold about_colour; vm_compute; tauto]|]). constructor.
Qed.

Print Assumptions C57_colour_only.
Print Assumptions C57_dabs.
Print Assumptions C57_reports.
Print Assumptions C57_case.
Print Assumptions C57_reports_case.
