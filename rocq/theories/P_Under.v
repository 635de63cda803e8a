(** What is already painted has no influence on a stroke (C58).

    A program paints with a brush that does not smudge, once on one picture and
    once on another.  The brush behaves the same both times - the same answers, the
    same dabs in the same colours, the same reports - and wherever the two pictures
    agreed before, they agree afterwards. *)
From Verif Require Import Base F32 F32Proofs Arith Color Mapping Settings Spectral Brush BrushProofs BrushInst BrushToy RecolourProofs UnderProofs Queue Blend Rect Symmetry Mask Plumb Paint Easel P_Recolour.
From Verif Require Dab P_Dab P_Mask.
Local Open Scope Z_scope.

(** surfaces that answer every dab alike, however different they look *)
Definition answer_alike {E : env mix64} (rel : e_surf E -> e_surf E -> Prop) : Prop :=
  forall s1 s2 d p s1', rel s1 s2 -> e_draw E s1 d = Ok (p, s1') -> exists s2', e_draw E s2 d = Ok (p, s2') /\ rel s1' s2'.

(** the same surface with another picture on it *)
Definition on_picture (ts : Dab.tsurf) (p : tile -> list Z) : Dab.tsurf :=
  Dab.mkTS (mkSurf (sf_q (Dab.ts_sf ts)) p) (Dab.ts_boxes ts) (Dab.ts_num ts) (Dab.ts_dirtied ts) (Dab.ts_sym ts).
(** what is on a surface *)
Definition picture (ts : Dab.tsurf) : tile -> list Z := sf_pix (Dab.ts_sf ts).

(** *** proofs *)
Section C58.
  Context (L : mathlib mix64) {E : env mix64} (rel : e_surf E -> e_surf E -> Prop).
  Hypothesis alike : answer_alike rel.

  Lemma calls_leave : forall c, leaves_smudging c -> no_smudge c.
  Proof. intros [e| | |i v|i k m|i k m x y|i v|i k] H; cbn in *; first [exact Logic.I|apply smudge_id; exact H]. Qed.

  Lemma one_unseen : forall n c (b : brush E) w1 w2 r, clean (b_settings b) -> leaves_smudging c -> rel (w_surf w1) (w_surf w2) -> perform_one L n c b w1 = Ok r ->
    match r with
    | None => perform_one L n c b w2 = Ok None
    | Some (l, b', w1') => exists w2', perform_one L n c b w2 = Ok (Some (l, b', w2')) /\ rel (w_surf w1') (w_surf w2') /\ clean (b_settings b')
    end.
  Proof.
    intros n c b w1 w2 r Cl Ls R P.
    assert ((forall e, c <> CStroke e) -> perform_one L n c b w1 = (let* r := run_call L n b w1 c in Ok (option_map (fun q => let '(b, w) := q in ([], b, w)) r)) ->
      perform_one L n c b w2 = (let* r := run_call L n b w2 c in Ok (option_map (fun q => let '(b, w) := q in ([], b, w)) r)) ->
      match r with None => perform_one L n c b w2 = Ok None | Some (l, b', w1') => exists w2', perform_one L n c b w2 = Ok (Some (l, b', w2')) /\ rel (w_surf w1') (w_surf w2') /\ clean (b_settings b') end) as K.
    { intros _ Q1 Q2. rewrite Q1 in P. rewrite Q2. apply obind_ok in P. destruct P as (q & E1 & P). apply Ok_inj in P. subst r.
      pose proof (call_under L zero_is_off rel alike n b w1 w2 c q Cl R (calls_leave c Ls) E1) as U. destruct q as [(b', w1')|]; cbn [option_map].
      - destruct U as (w2' & -> & U1 & U2). exists w2'. auto.
      - rewrite U. reflexivity. }
    destruct c as [e| | |i v|i k m|i k m x y|i v|i k]; try (apply K; [discriminate|reflexivity|reflexivity]). clear K.
    cbn [perform_one] in *. apply obind_ok in P. destruct P as (q & E1 & P). apply Ok_inj in P. subst r.
    destruct (stroke_under L zero_is_off rel alike n b w1 w2 e q Cl R E1) as (q2 & -> & A). cbn [obind]. destruct q as [((a, b'), w1')|]; cbn [option_map answers] in *.
    - destruct A as (w2' & -> & U1 & U2). exists w2'. split; [reflexivity|]. split; [exact U1|]. rewrite U2. exact Cl.
    - subst q2. reflexivity.
  Qed.

  (** *** The theorem: on any two surfaces that answer dabs alike the program runs
      the same way: same answers, same brush, and the surfaces still answer alike. *)
  Theorem C58_picture_unseen : forall n cs (b : brush E) w1 w2 l b' w1',
    no_smudging b -> Forall leaves_smudging cs -> rel (w_surf w1) (w_surf w2) -> perform L n cs b w1 = Ok (Some (l, b', w1')) ->
    exists w2', perform L n cs b w2 = Ok (Some (l, b', w2')) /\ rel (w_surf w1') (w_surf w2').
  Proof.
    intros n cs b w1 w2 l b' w1' Ns. pose proof (no_smudging_clean b Ns) as Cl. clear Ns. revert b w1 w2 l Cl. induction cs as [|c cs IH]; intros b w1 w2 l Cl Ls R P; cbn [perform] in *.
    - apply Ok_inj in P. injection P as <- <- <-. exists w2. auto.
    - apply obind_ok in P. destruct P as (q & E1 & P). pose proof (one_unseen n c b w1 w2 q Cl (Forall_inv Ls) R E1) as U. destruct q as [((a, c1), v1)|]; [|discriminate P].
      destruct U as (v2 & -> & R2 & Cl2). cbn [obind]. apply obind_ok in P. destruct P as ([((m, e1), x1)|] & E2 & P); [|discriminate P]. cbn [option_map] in P. apply Ok_inj in P. injection P as <- <- <-.
      destruct (IH _ _ _ _ Cl2 (Forall_inv_tail Ls) R2 E2) as (w2' & -> & R3). exists w2'. cbn [obind option_map]. auto.
  Qed.
End C58.

(** *** The dabs: on surfaces that record what they are asked to draw and hand out
    any colours when asked for one, the dabs are the same, colours included. *)
Definition gallery (rng : Type) (next : rng -> outcome (car (dbl mix64) * rng)) (painted : dab mix64 -> bool)
  (view : list (dab mix64) * nat -> f32 -> f32 -> f32 -> f32 -> rgba mix64) : env mix64 :=
  mkEnv mix64 rng next (list (dab mix64) * nat) (fun l d => Ok (painted d, (fst l ++ [d], snd l))) (fun l x y r p => Ok (view l x y r p, l)).
Theorem C58_dabs : forall (L : mathlib mix64) rng next painted view n cs (b : brush (gallery rng next painted view)) mix1 mix2 which1 which2 l b' w1,
  no_smudging b -> Forall leaves_smudging cs -> perform L n cs b (mkWorld (E := gallery rng next painted view) ([], which1) mix1) = Ok (Some (l, b', w1)) ->
  exists w2, perform L n cs b (mkWorld (E := gallery rng next painted view) ([], which2) mix2) = Ok (Some (l, b', w2)) /\ fst (w_surf w2) = fst (w_surf w1).
Proof.
  intros L rng next painted view n cs b mix1 mix2 which1 which2 l b' w1 Ns Ls P.
  assert (answer_alike (E := gallery rng next painted view) (fun s1 s2 => fst s2 = fst s1)) as A.
  { intros s1 s2 dd p s1' R D. cbn [gallery e_draw] in *. apply Ok_inj in D. injection D as <- <-. eexists. split; [reflexivity|]. cbn [fst]. rewrite R. reflexivity. }
  destruct (C58_picture_unseen L (E := gallery rng next painted view) _ A n cs b (mkWorld (E := gallery rng next painted view) ([], which1) mix1) (mkWorld (E := gallery rng next painted view) ([], which2) mix2) l b' w1 Ns Ls eq_refl P) as (w2 & Q & R). exists w2. auto.
Qed.

(** *** The tiled surface *)
Lemma tiles_eq : forall t u, tile_equal t u = true -> t = u.
Proof. intros (a, b) (c, e) H. unfold tile_equal in H. cbn in H. apply andb_prop in H. destruct H as (H1 & H2). apply Z.eqb_eq in H1. apply Z.eqb_eq in H2. subst. reflexivity. Qed.

Section Tiles.
  Context (Op T : Type) (micro : tile -> Op -> list (T -> outcome T)) (A : tile -> Prop).
  Definition sfs (s1 s2 : surf Op T) : Prop := sf_q s2 = sf_q s1 /\ forall t, A t -> sf_pix s2 t = sf_pix s1 t.
  Lemma drain_both : forall f q t o v1 v2 q1 q2 u1 u2, drain Op T micro f q t o v1 = Ok (q1, u1) -> drain Op T micro f q t o v2 = Ok (q2, u2) -> q2 = q1 /\ (v2 = v1 -> u2 = u1).
  Proof.
    induction f as [|f IH]; intros q t o v1 v2 q1 q2 u1 u2 D1 D2; cbn [drain] in *; [discriminate D1|].
    apply obind_ok in D1. destruct D1 as (x1 & X1 & D1). apply obind_ok in D2. destruct D2 as (x2 & X2 & D2). assert (v2 = v1 -> x2 = x1) as X by (intros ->; rewrite X1 in X2; apply Ok_inj in X2; auto).
    destruct (operation_queue_pop q t) as [([o'|], q')| |]; cbn [obind] in *; try discriminate D1.
    - destruct (IH _ _ _ _ _ _ _ _ _ D1 D2) as (I1 & I2). auto.
    - apply Ok_inj in D1. apply Ok_inj in D2. injection D1 as <- <-. injection D2 as <- <-. auto.
  Qed.
  Lemma process_both : forall can s1 s2 t s1' s2', sfs s1 s2 -> process_tile Op T micro can s1 t = Ok s1' -> process_tile Op T micro can s2 t = Ok s2' -> sfs s1' s2'.
  Proof.
    intros can s1 s2 t s1' s2' (Q & R) P1 P2. unfold process_tile in *. rewrite Q in P2. destruct (operation_queue_pop (sf_q s1) t) as [([o|], q)| |]; cbn [obind] in *; try discriminate P1.
    - destruct (can t).
      + apply obind_ok in P1. destruct P1 as ((q1, v1) & D1 & P1). apply obind_ok in P2. destruct P2 as ((q2, v2) & D2 & P2). destruct (drain_both _ _ _ _ _ _ _ _ _ _ D1 D2) as (-> & V). apply Ok_inj in P1. apply Ok_inj in P2. subst s1' s2'.
        split; [reflexivity|]. intros u Au. cbn [sf_pix]. unfold set_pix. destruct (tile_equal t u) eqn:Eq; [|exact (R u Au)]. apply tiles_eq in Eq. subst u. exact (V (R t Au)).
      + apply Ok_inj in P1. apply Ok_inj in P2. subst s1' s2'. split; [reflexivity|exact R].
    - apply Ok_inj in P1. apply Ok_inj in P2. subst s1' s2'. split; [reflexivity|exact R].
  Qed.
  Lemma flush_both : forall can s1 s2 s1' s2', sfs s1 s2 -> flush Op T micro can s1 = Ok s1' -> flush Op T micro can s2 = Ok s2' -> sfs s1' s2'.
  Proof.
    intros can s1 s2 s1' s2' (Q & R) P1 P2. unfold flush in *. rewrite Q in P2. destruct (operation_queue_get_dirty_tiles (sf_q s1)) as (ts, q).
    apply obind_ok in P1. destruct P1 as (e1 & F1 & P1). apply obind_ok in P2. destruct P2 as (e2 & F2 & P2). apply Ok_inj in P1. apply Ok_inj in P2. subst s1' s2'.
    assert (sfs e1 e2) as (Q' & R').
    { assert (sfs (mkSurf q (sf_pix s1)) (mkSurf q (sf_pix s2))) as S0 by (split; [reflexivity|exact R]). revert S0 F1 F2. generalize (mkSurf q (sf_pix s1)) (mkSurf q (sf_pix s2)). clear. induction ts as [|t ts IH]; intros a1 a2 S0 F1 F2; cbn [ofold] in *.
      - apply Ok_inj in F1. apply Ok_inj in F2. subst e1 e2. exact S0.
      - apply obind_ok in F1. destruct F1 as (c1 & C1 & F1). apply obind_ok in F2. destruct F2 as (c2 & C2 & F2). exact (IH _ _ (process_both _ _ _ _ _ _ S0 C1 C2) F1 F2). }
    split; [cbn [sf_q]; rewrite Q'; reflexivity|exact R'].
  Qed.
  Lemma row_both : forall canw canr row s1 s2 n1 n2 s1' s2' n1' n2', sfs s1 s2 -> read_row Op T micro canw canr row s1 n1 = Ok (s1', n1') -> read_row Op T micro canw canr row s2 n2 = Ok (s2', n2') -> sfs s1' s2'.
  Proof.
    induction row as [|t row IH]; intros s1 s2 n1 n2 s1' s2' n1' n2' S0 P1 P2; cbn [read_row] in *.
    - apply Ok_inj in P1. apply Ok_inj in P2. injection P1 as <- _. injection P2 as <- _. exact S0.
    - apply obind_ok in P1. destruct P1 as (c1 & C1 & P1). apply obind_ok in P2. destruct P2 as (c2 & C2 & P2). pose proof (process_both _ _ _ _ _ _ S0 C1 C2) as S1. destruct (canr t); [exact (IH _ _ _ _ _ _ _ _ S1 P1 P2)|].
      apply Ok_inj in P1. apply Ok_inj in P2. injection P1 as <- _. injection P2 as <- _. exact S1.
  Qed.
  Lemma read_both : forall canw canr rows s1 s2 s1' s2' n1' n2', sfs s1 s2 -> read Op T micro canw canr rows s1 = Ok (s1', n1') -> read Op T micro canw canr rows s2 = Ok (s2', n2') -> sfs s1' s2'.
  Proof.
    intros canw canr rows s1 s2 s1' s2' n1' n2' S0. unfold read. generalize (@nil (tile * T)) at 1 as m1. generalize (@nil (tile * T)) as m2. revert s1 s2 S0. induction rows as [|row rows IH]; intros s1 s2 S0 m2 m1 P1 P2; cbn [ofold] in *.
    - apply Ok_inj in P1. apply Ok_inj in P2. injection P1 as <- _. injection P2 as <- _. exact S0.
    - apply obind_ok in P1. destruct P1 as ((c1, k1) & C1 & P1). apply obind_ok in P2. destruct P2 as ((c2, k2) & C2 & P2). cbn [fst snd] in *. exact (IH _ _ (row_both _ _ _ _ _ _ _ _ _ _ _ S0 C1 C2) _ _ P1 P2).
  Qed.
End Tiles.

Section Canvas.
  Context (trig : Mask.trig_oracle) (G : trigops num32) (L : mathlib mix64) (rng : Type) (next : rng -> outcome (f64 * rng))
          (get : Dab.tsurf -> f32 -> f32 -> f32 -> f32 -> outcome (rgba mix64 * Dab.tsurf)).
  Local Notation easel := (Easel.easel G rng next get).

  Definition agree (A : tile -> Prop) (t1 t2 : Dab.tsurf) : Prop := sfs _ _ A (Dab.ts_sf t1) (Dab.ts_sf t2) /\ same_boxes t1 t2.

  Lemma internal_agree : forall A t1 t2 d i t1' m, agree A t1 t2 -> Dab.draw_dab_internal t1 d i = Ok (t1', m) -> exists t2', Dab.draw_dab_internal t2 d i = Ok (t2', m) /\ agree A t1' t2'.
  Proof.
    intros A t1 t2 d i t1' m ((Q & R) & B1 & B2 & B3 & B4) P. unfold Dab.draw_dab_internal in *. apply obind_ok in P. destruct P as (o & -> & P). cbn [obind]. destruct o as [o|].
    - apply obind_ok in P. destruct P as (ti & -> & P). cbn [obind]. apply obind_ok in P. destruct P as (sf & S1 & P). unfold enqueue in *. rewrite Q. apply obind_ok in S1. destruct S1 as (q & -> & S1). cbn [obind]. apply Ok_inj in S1. subst sf.
      apply obind_ok in P. destruct P as (r & R1 & P). rewrite B1, R1. cbn [obind]. apply obind_ok in P. destruct P as (r' & -> & P). cbn [obind]. apply Ok_inj in P. injection P as <- <-.
      eexists. split; [reflexivity|]. unfold agree, sfs, same_boxes. cbn. auto.
    - apply Ok_inj in P. injection P as <- <-. exists t2. split; [reflexivity|]. unfold agree, sfs, same_boxes. auto.
  Qed.
  Lemma draw_agree : forall A t1 t2 d t1' m, agree A t1 t2 -> Dab.draw_dab G t1 d = Ok (t1', m) -> exists t2', Dab.draw_dab G t2 d = Ok (t2', m) /\ agree A t1' t2'.
  Proof.
    intros A t1 t2 d t1' m H P. unfold Dab.draw_dab in *. apply obind_ok in P. destruct P as ((u1, k) & E1 & P). destruct (internal_agree _ _ _ _ _ _ _ H E1) as (u2 & -> & H'). cbn [obind].
    assert (forall n a c, agree A a c -> agree A (Dab.set_dirtied a (Z.min (Dab.ts_num a) n)) (Dab.set_dirtied c (Z.min (Dab.ts_num c) n))) as K.
    { intros n a c (S0 & C1 & C2 & C3 & C4). split; [exact S0|]. unfold same_boxes, Dab.set_dirtied. cbn. rewrite C2. auto. }
    destruct k.
    - apply obind_ok in P. destruct P as ((ex, us) & X & P). pose proof H' as (_ & B1 & B2 & B3 & B4). rewrite B4, B2, X. cbn [obind]. apply obind_ok in P. destruct P as (v1 & F1 & P). apply Ok_inj in P. injection P as <- <-.
      assert (exists v2, ofold (fun ts (e : @extra num32) => let* r := Dab.draw_dab_internal ts (Dab.moved d (e_x e) (e_y e) (e_angle e)) (e_box e) in Ok (fst r)) ex u2 = Ok v2 /\ agree A v1 v2) as (v2 & F2 & V).
      { clear - H' F1. revert u1 u2 H' F1. induction ex as [|e ex IH]; intros u1 u2 H F1; cbn [ofold] in *.
        - apply Ok_inj in F1. subst v1. exists u2. auto.
        - apply obind_ok in F1. destruct F1 as (y1 & Y1 & F1). apply obind_ok in Y1. destruct Y1 as ((z1, n1) & Z1 & Y1). apply Ok_inj in Y1. cbn [fst] in Y1. subst y1. destruct (internal_agree _ _ _ _ _ _ _ H Z1) as (z2 & -> & H2). cbn [obind fst]. exact (IH _ _ H2 F1). }
      rewrite F2. cbn [obind]. eexists. split; [reflexivity|apply K; exact V].
    - apply Ok_inj in P. injection P as <- <-. eexists. split; [reflexivity|apply K; exact H'].
  Qed.
  Lemma canvas_alike : forall A, answer_alike (E := easel) (agree A).
  Proof.
    intros A s1 s2 d p s1' R D. cbn [Easel.easel e_draw] in *. apply obind_ok in D. destruct D as ((u, m) & D & H). apply Ok_inj in H. injection H as <- <-. destruct (draw_agree _ _ _ _ _ _ R D) as (u2 & -> & R'). exists u2. auto.
  Qed.
  Lemma end_agree : forall A can roi t1 t2 t1' t2' r1 r2, agree A t1 t2 -> Dab.end_atomic trig paint_mix can roi t1 = Ok (t1', r1) -> Dab.end_atomic trig paint_mix can roi t2 = Ok (t2', r2) -> r2 = r1 /\ agree A t1' t2'.
  Proof.
    intros A can roi t1 t2 t1' t2' r1 r2 (S0 & B) P1 P2. destruct (end_shape trig _ _ _ _ _ _ _ _ B P1 P2) as (-> & B'). split; [reflexivity|]. split; [|exact B'].
    unfold Dab.end_atomic in *. apply obind_ok in P1. destruct P1 as (s1 & F1 & P1). apply obind_ok in P2. destruct P2 as (s2 & F2 & P2). pose proof (flush_both _ _ _ _ _ _ _ _ _ S0 F1 F2) as S1. cbv zeta in *.
    destruct roi as [(rects, cap)|]; [apply obind_ok in P1; destruct P1 as (q1 & _ & P1); apply obind_ok in P2; destruct P2 as (q2 & _ & P2)|]; apply Ok_inj in P1; apply Ok_inj in P2; injection P1 as <- _; injection P2 as <- _; exact S1.
  Qed.
  Lemma sstep_agree : forall A e t1 t2 t1' t2' r1 r2, (forall d, e <> Dab.SDab d) -> agree A t1 t2 -> Dab.sstep trig paint_mix G t1 e = Ok (t1', r1) -> Dab.sstep trig paint_mix G t2 e = Ok (t2', r2) -> agree A t1' t2'.
  Proof.
    intros A e t1 t2 t1' t2' r1 r2 Nd (S0 & B) P1 P2. split; [|exact (sstep_shape trig G _ _ _ _ _ _ _ Nd B P1 P2)]. destruct e as [a cx cy an ty li|k1 k2|d|cw cr rows|can roi]; cbn [Dab.sstep] in P1, P2.
    - apply Ok_inj in P1. apply Ok_inj in P2. injection P1 as <- _. injection P2 as <- _. exact S0.
    - apply obind_ok in P1. destruct P1 as (u1 & U1 & P1). apply obind_ok in P2. destruct P2 as (u2 & U2 & P2). apply Ok_inj in P1. apply Ok_inj in P2. injection P1 as <- _. injection P2 as <- _.
      assert (forall u v, Dab.begin_atomic G k1 k2 u = Ok v -> Dab.ts_sf v = Dab.ts_sf u) as K.
      { intros u v U. unfold Dab.begin_atomic, Dab.prepare_bounding_boxes in U. apply obind_ok in U. destruct U as (sy & _ & U). cbv zeta in U. apply obind_ok in U. destruct U as (de & _ & U). apply obind_ok in U. destruct U as (((bx, nu), di) & _ & U). apply obind_ok in U. destruct U as (bx' & _ & U). apply Ok_inj in U. subst v. reflexivity. }
      rewrite (K _ _ U1), (K _ _ U2). exact S0.
    - destruct (Nd d eq_refl).
    - apply obind_ok in P1. destruct P1 as ((u1, g1) & U1 & P1). apply obind_ok in P2. destruct P2 as ((u2, g2) & U2 & P2). apply Ok_inj in P1. apply Ok_inj in P2. injection P1 as <- _. injection P2 as <- _. exact (read_both _ _ _ _ _ _ _ _ _ _ _ _ _ S0 U1 U2).
    - apply obind_ok in P1. destruct P1 as ((u1, g1) & U1 & P1). apply obind_ok in P2. destruct P2 as ((u2, g2) & U2 & P2). apply Ok_inj in P1. apply Ok_inj in P2. injection P1 as <- _. injection P2 as <- _.
      exact (proj1 (proj2 (end_agree _ _ _ _ _ _ _ _ _ (conj S0 B) U1 U2))).
  Qed.

  Lemma act_agree : forall A n a (b : brush easel) (w1 w2 : world easel) b1 b2 w1' w2', a <> LoadDefaults -> leaves_smudging' a -> clean (b_settings b) -> agree A (w_surf w1) (w_surf w2) ->
    Easel.act trig G L rng next get n (b, w1) a = Ok (Some (b1, w1')) -> Easel.act trig G L rng next get n (b, w2) a = Ok (Some (b2, w2')) ->
    b2 = b1 /\ clean (b_settings b1) /\ agree A (w_surf w1') (w_surf w2').
  Proof.
    intros A n a b w1 w2 b1 b2 w1' w2' Na Ls Cl R P1 P2.
    assert (forall c, no_smudge c -> run_call (E := easel) L n b w1 c = Ok (Some (b1, w1')) -> run_call (E := easel) L n b w2 c = Ok (Some (b2, w2')) -> b2 = b1 /\ clean (b_settings b1) /\ agree A (w_surf w1') (w_surf w2')) as K.
    { intros c Ns D1 D2. pose proof (call_under (E := easel) L zero_is_off (agree A) (canvas_alike A) n b w1 w2 c _ Cl R Ns D1) as (w2'' & Q & U1 & U2). rewrite Q in D2. apply Ok_inj in D2.
      assert (b2 = b1 /\ w2'' = w2') as (-> & <-) by (injection D2; auto). auto. }
    destruct a as [e| | | |i v|i k m|i k m x y|ac cx cy an ty li|k1 k2|cw cr rows|can roi]; try (destruct (Na eq_refl));
      try (refine (K _ _ P1 P2); first [exact Logic.I|apply smudge_id; exact Ls]);
      cbn [Easel.act brush_call surface_call] in P1, P2; apply obind_ok in P1; destruct P1 as ((u1, g1) & U1 & P1); apply obind_ok in P2; destruct P2 as ((u2, g2) & U2 & P2);
      apply Ok_inj in P1; apply Ok_inj in P2; injection P1 as <- <-; injection P2 as <- <-; (split; [reflexivity|]); (split; [exact Cl|]); cbn [w_surf];
      refine (sstep_agree _ _ _ _ _ _ _ _ _ R U1 U2); discriminate.
  Qed.

  (** *** A painting program on two pictures: the brush is the same afterwards, and
      so is the surface up to its picture; every tile with the same content before
      has the same content afterwards. *)
  Theorem C58_canvas : forall n l (b : brush easel) ts mix p b1 b2 (w1 w2 : world easel),
    no_smudging b -> Forall leaves_smudging' l -> ~ In LoadDefaults l ->
    Easel.run trig G L rng next get n (b, mkWorld (E := easel) ts mix) l = Ok (Some (b1, w1)) ->
    Easel.run trig G L rng next get n (b, mkWorld (E := easel) (on_picture ts p) mix) l = Ok (Some (b2, w2)) ->
    b2 = b1 /\ w_surf w2 = on_picture (w_surf w1) (picture (w_surf w2)) /\
    forall t, p t = picture ts t -> picture (w_surf w2) t = picture (w_surf w1) t.
  Proof.
    intros n l b ts mix p b1 b2 w1 w2 Ns Ls Nd P1 P2. pose proof (no_smudging_clean b Ns) as Cl. clear Ns.
    assert (forall A : tile -> Prop, (forall t, A t -> p t = picture ts t) -> b2 = b1 /\ agree A (w_surf w1) (w_surf w2)) as K.
    { intros A HA. assert (agree A (w_surf (mkWorld (E := easel) ts mix)) (w_surf (mkWorld (E := easel) (on_picture ts p) mix))) as R0.
      { split; [split; [reflexivity|exact HA]|]. unfold same_boxes. auto. }
      revert b Cl R0 P1 P2. generalize (mkWorld (E := easel) ts mix) (mkWorld (E := easel) (on_picture ts p) mix). induction l as [|a l IH]; intros v1 v2 b Cl R0 P1 P2; cbn [Easel.run] in *.
      - apply Ok_inj in P1. apply Ok_inj in P2. injection P1 as <- <-. injection P2 as <- <-. auto.
      - apply obind_ok in P1. destruct P1 as ([(c1, x1)|] & E1 & P1); [|discriminate P1]. apply obind_ok in P2. destruct P2 as ([(c2, x2)|] & E2 & P2); [|discriminate P2].
        assert (a <> LoadDefaults) as Na by (intros ->; apply Nd; left; reflexivity).
        destruct (act_agree _ _ _ _ _ _ _ _ _ _ Na (Forall_inv Ls) Cl R0 E1 E2) as (-> & Cl2 & R2).
        refine (IH (Forall_inv_tail Ls) _ _ _ _ Cl2 R2 P1 P2). intros I. apply Nd. right. exact I. }
    destruct (K (fun t => p t = picture ts t) (fun t H => H)) as (Eb & (Q & R) & B1 & B2 & B3 & B4). split; [exact Eb|]. split; [|exact R].
    unfold on_picture, picture. rewrite <- Q, <- B1, <- B2, <- B3, <- B4. destruct (w_surf w2) as [[q px] bx nu di sy]. reflexivity.
  Qed.

  (** *** ... and the program is told of the same changed rectangles *)
  Theorem C58_reports : forall n l (b : brush easel) ts mix p r1 r2,
    no_smudging b -> Forall leaves_smudging' l -> ~ In LoadDefaults l ->
    reports trig G L rng next get n l b (mkWorld (E := easel) ts mix) = Ok (Some r1) ->
    reports trig G L rng next get n l b (mkWorld (E := easel) (on_picture ts p) mix) = Ok (Some r2) -> r2 = r1.
  Proof.
    intros n l b ts mix p r1 r2 Ns Ls Nd P1 P2. refine (reports_twin trig G L rng next get n l l b b _ _ r1 r2 _ Ls (twin_refl b) (no_smudging_clean b Ns) _ P1 P2).
    - clear - Nd. induction l as [|a l IH]; constructor; [apply ba_same; intros ->; apply Nd; left; reflexivity|apply IH; intros I; apply Nd; right; exact I].
    - unfold same_boxes. auto.
  Qed.
End Canvas.

(** *** Examples.  Two exhibitions: asked for a colour, the first surface says black
    and the second white. *)
Definition shown (l : list (dab mix64) * nat) (x y r p : f32) : rgba mix64 := match snd l with O => (f0, f0, f0, f1) | _ => (f1, f1, f1, f1) end.
Definition rooms : env mix64 := gallery unit half (fun _ => true) shown.
Definition room (k : nat) : world rooms := mkWorld (E := rooms) ([], k) ((f0, f0, f0, f0) : rgba mix64).
Definition visit (free : bool) (cs : list (call mix64)) (P : list (dab mix64) -> list (dab mix64) -> bool) : bool :=
  match loaded rooms tt with
  | Ok b => implb free (smudge_free b) &&
      match perform toy_lib 20 cs b (room 0), perform toy_lib 20 cs b (room 1) with
      | Ok (Some (_, _, w1)), Ok (Some (_, _, w2)) => P (fst (w_surf w1)) (fst (w_surf w2))
      | _, _ => false
      end
  | _ => false
  end.
Lemma visit_ok : forall free cs P, visit free cs P = true -> exists b l1 b1 w1 l2 b2 w2, (free = true -> no_smudging b) /\
  perform toy_lib 20 cs b (room 0) = Ok (Some (l1, b1, w1)) /\ perform toy_lib 20 cs b (room 1) = Ok (Some (l2, b2, w2)) /\ P (fst (w_surf w1)) (fst (w_surf w2)) = true.
Proof.
  intros free cs P. unfold visit. destruct (loaded rooms tt) as [b| |]; intros T; try discriminate T. apply andb_prop in T. destruct T as (S & T).
  destruct (perform toy_lib 20 cs b (room 0)) as [[((l1, b1), w1)|]| |] eqn:E1; try discriminate T.
  destruct (perform toy_lib 20 cs b (room 1)) as [[((l2, b2), w2)|]| |] eqn:E2; try discriminate T.
  exists b, l1, b1, w1, l2, b2, w2. split; [intros ->; apply smudge_free_ok; exact S|]. split; [exact E1|]. split; [exact E2|exact T].
Qed.
Lemma seen_dabs : visit true (stroked bright) (fun l1 _ => 2 <=? Z.of_nat (length l1)) = true.
Proof. vm_compute. reflexivity. Qed.
Example C58_case : exists (b : brush rooms) l b1 w1, no_smudging b /\ Forall leaves_smudging (stroked bright) /\
  perform toy_lib 20 (stroked bright) b (room 0) = Ok (Some (l, b1, w1)) /\ 2 <= Z.of_nat (length (fst (w_surf w1))).
Proof.
  destruct (visit_ok _ _ _ seen_dabs) as (b & l1 & b1 & w1 & l2 & b2 & w2 & S & E1 & _ & T). exists b, l1, b1, w1. split; [exact (S eq_refl)|]. split; [exact (proj2 recoloured)|]. split; [exact E1|]. apply Z.leb_le. exact T.
Qed.
(** with smudging the claim is false: the dabs take their colours from the picture *)
Definition smudged : list (call mix64) := stroked (bright ++ smudging).
Lemma smudged_dabs : visit false smudged (fun l1 l2 => existsb (fun p => other_colour (fst p) (snd p)) (combine l1 l2)) = true.
Proof. vm_compute. reflexivity. Qed.
Theorem C58_smudging_refuted : exists (b : brush rooms) cs l1 b1 w1 l2 b2 w2,
  perform toy_lib 20 cs b (room 0) = Ok (Some (l1, b1, w1)) /\ perform toy_lib 20 cs b (room 1) = Ok (Some (l2, b2, w2)) /\
  exists d1 d2, In (d1, d2) (combine (fst (w_surf w1)) (fst (w_surf w2))) /\ other_colour d1 d2 = true.
Proof.
  destruct (visit_ok _ _ _ smudged_dabs) as (b & l1 & b1 & w1 & l2 & b2 & w2 & _ & E1 & E2 & T). exists b, smudged, l1, b1, w1, l2, b2, w2. split; [exact E1|]. split; [exact E2|].
  apply existsb_exists in T. destruct T as ((d1, d2) & I & T). exists d1, d2. auto.
Qed.

Print Assumptions C58_picture_unseen.
Print Assumptions C58_dabs.
Print Assumptions C58_canvas.
Print Assumptions C58_reports.
Print Assumptions C58_case.
Print Assumptions C58_smudging_refuted.
