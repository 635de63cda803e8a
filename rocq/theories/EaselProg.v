(** A program painting with a brush on a tiled surface: every action succeeds. *)
From Verif Require Import Base F32 F32Proofs Arith Color Mapping P_Mapping Settings Spectral Brush BrushProofs ReturnProofs BrushSettings DabSeen BrushInst
  Queue Blend Rect Symmetry Mask Plumb Paint EaselNum EaselDab EaselStep EaselProofs EaselRun SymReach SymCopies Easel EaselSurf.
From Verif Require Dab HistoryProofs P_Complete SessionProofs DirtyProofs P_Blend.
From Coq Require Import Reals Lra.
From Flocq Require Import Core.Core IEEE754.BinarySingleNaN.
Local Open Scope Z_scope.

(** *** The settings of the brush under the calls that change them *)
Notation settings := (list (mapping (sng mix64))).
Definition edit_setting (ms : settings) (id : Z) (e : P_Mapping.edit (sng mix64)) : outcome settings :=
  if (0 <=? id) && (id <? Z.of_nat SETTINGS_COUNT) then
    match nth_error ms (Z.to_nat id) with
    | Some m => let* m := apply_edit m e in Ok (upd ms (Z.to_nat id) m)
    | None => UB
    end
  else Abort.
Definition edit_to_defaults (ms : settings) : outcome settings :=
  let* ms := ofold (fun ms id =>
      let* ms := ofold (fun ms i => edit_setting ms id (P_Mapping.SetN i 0)) (zrange 0 INPUTS_COUNT) ms in
      edit_setting ms id (P_Mapping.SetBase (default_of (M := mix64) id))) (zrange 0 SETTINGS_COUNT) ms in
  let om := Z.of_nat SET_OPAQUE_MULTIPLY in
  let pr := Z.of_nat INP_PRESSURE in
  let* ms := edit_setting ms om (P_Mapping.SetN pr 2) in
  let* ms := edit_setting ms om (P_Mapping.SetPoint pr 0 (f_of_Z 0 : car (sng mix64)) (f_of_Z 0 : car (sng mix64))) in
  edit_setting ms om (P_Mapping.SetPoint pr 1 (f_of_Z 1 : car (sng mix64)) (f_of_Z 1 : car (sng mix64))).
Definition settings_after (ms : settings) (a : action) : outcome settings :=
  match a with
  | LoadDefaults => edit_to_defaults ms
  | SetBase id v => edit_setting ms id (P_Mapping.SetBase (v : car (sng mix64)))
  | SetPoints id input n => edit_setting ms id (P_Mapping.SetN input n)
  | SetPoint id input index x y => edit_setting ms id (P_Mapping.SetPoint input index (x : car (sng mix64)) (y : car (sng mix64)))
  | _ => Ok ms
  end.

Section Brush.
  Context (L : mathlib mix64) {E : env mix64}.
  Notation brush := (brush E).

  Record idle (b : brush) : Prop := {
    id_shape : shape b; id_random : zd 0 (b_random b) 1; id_flip : flip_ok b; id_pen : pen_near b; id_where : near_x 110002 2 b;
    id_partial : fin (st b STATE_PARTIAL_DABS : f32) /\ (0 <= b2r (st b STATE_PARTIAL_DABS : f32) < 1)%R }.

  Lemma idle_rested : forall b, idle b -> tuned (b_settings b) -> rested b.
  Proof. intros b [A B C D F G] T. split; [split; [exact A|split; [exact T|split; [exact B|exact C]]]|exact D|exact F|exact G]. Qed.
  Lemma rested_idle : forall b : brush, rested b -> idle b.
  Proof. intros b [(A & _ & B & C) D F G]. split; assumption. Qed.

  Lemma setting_edit : forall (b : brush) id e ms, shape b -> edit_setting (b_settings b) id e = Ok ms ->
    exists m m', setting_of b id = Ok m /\ apply_edit m e = Ok m' /\ ms = upd (b_settings b) (Z.to_nat id) m' /\ settings_ok ms.
  Proof.
    intros b id e ms (_ & (Ln & F) & _) H. unfold edit_setting in H. unfold setting_of. destruct ((0 <=? id) && (id <? Z.of_nat SETTINGS_COUNT)); [|discriminate H].
    destruct (nth_error (b_settings b) (Z.to_nat id)) as [m|] eqn:N; [|discriminate H]. apply obind_ok in H. destruct H as (m' & A & H). apply Ok_inj in H. subst ms.
    exists m, m'. split; [reflexivity|]. split; [exact A|]. split; [reflexivity|]. apply settings_upd; [split; assumption|].
    apply nth_error_In in N. rewrite Forall_forall in F. destruct (F m N) as (es & He). eapply edited_more; eauto.
  Qed.

  (** [follows f g]: the call [f] succeeds if [g] succeeds on the settings, and changes nothing else *)
  Definition follows (f : brush -> outcome brush) (g : settings -> outcome settings) : Prop :=
    forall b ms, idle b -> g (b_settings b) = Ok ms -> exists b', f b = Ok b' /\ b_settings b' = ms /\ idle b'.

  Lemma idle_settings : forall (b : brush) ms, idle b -> settings_ok ms -> idle (with_settings b ms).
  Proof. intros b ms [(A1 & A2 & A3 & A4) B C D F G] S. split; [split; [exact A1|split; [exact S|split; [exact A3|exact A4]]]|exact B|exact C|exact D|exact F|exact G]. Qed.
  Lemma idle_speed : forall (b : brush), idle b -> idle (speed_mapping L b).
  Proof. intros b [A B C D F G]. split; [exact A|exact B|exact C|exact D|exact F|exact G]. Qed.

  Lemma base_follows : forall id (v : car (sng mix64)), follows (fun b => set_base_value L b id v) (fun ms => edit_setting ms id (P_Mapping.SetBase v)).
  Proof.
    intros id v b ms I H. destruct (setting_edit b id _ ms (id_shape _ I) H) as (m & m' & S & A & -> & Ok'). unfold set_base_value. rewrite S. cbn [obind].
    cbn [apply_edit] in A. apply Ok_inj in A. rewrite A. eexists. split; [reflexivity|]. split; [reflexivity|]. apply idle_speed, idle_settings; auto.
  Qed.
  Lemma points_follow : forall id input n, follows (fun b => set_mapping_n b id input n) (fun ms => edit_setting ms id (P_Mapping.SetN input n)).
  Proof.
    intros id input n b ms I H. destruct (setting_edit b id _ ms (id_shape _ I) H) as (m & m' & S & A & -> & Ok'). unfold set_mapping_n. rewrite S. cbn [obind].
    cbn [apply_edit] in A. rewrite A. cbn [obind]. eexists. split; [reflexivity|]. split; [reflexivity|]. apply idle_settings; auto.
  Qed.
  Lemma point_follows : forall id input k (x y : car (sng mix64)), follows (fun b => set_mapping_point b id input k x y) (fun ms => edit_setting ms id (P_Mapping.SetPoint input k x y)).
  Proof.
    intros id input k x y b ms I H. destruct (setting_edit b id _ ms (id_shape _ I) H) as (m & m' & S & A & -> & Ok'). unfold set_mapping_point. rewrite S. cbn [obind].
    cbn [apply_edit] in A. rewrite A. cbn [obind]. eexists. split; [reflexivity|]. split; [reflexivity|]. apply idle_settings; auto.
  Qed.
  Lemma follows_bind : forall f1 g1 f2 g2, follows f1 g1 -> follows f2 g2 -> follows (fun b => let* b := f1 b in f2 b) (fun ms => let* ms := g1 ms in g2 ms).
  Proof.
    intros f1 g1 f2 g2 H1 H2 b ms I H. apply obind_ok in H. destruct H as (ms1 & E1 & H). destruct (H1 b ms1 I E1) as (b1 & -> & <- & I1). cbn [obind]. apply H2; auto.
  Qed.
  Lemma follows_fold : forall {A} (f : brush -> A -> outcome brush) (g : settings -> A -> outcome settings) (l : list A), (forall x, follows (fun b => f b x) (fun ms => g ms x)) ->
    follows (fun b => ofold f l b) (fun ms => ofold g l ms).
  Proof.
    intros A f g l H. induction l as [|x l IH]; intros b ms I Hm; cbn [ofold] in *; [apply Ok_inj in Hm; subst ms; eauto|].
    apply obind_ok in Hm. destruct Hm as (ms1 & E1 & Hm). destruct (H x b ms1 I E1) as (b1 & -> & <- & I1). cbn [obind]. apply IH; auto.
  Qed.
  Lemma defaults_follow : follows (fun b => from_defaults L b) edit_to_defaults.
  Proof.
    unfold from_defaults, edit_to_defaults. cbv zeta.
    refine (follows_bind _ _ _ _ (follows_fold _ _ _ _) (follows_bind _ _ _ _ (points_follow _ _ _) (follows_bind _ _ _ _ (point_follows _ _ _ _ _) (point_follows _ _ _ _ _)))).
    intros id. refine (follows_bind _ _ _ _ (follows_fold _ _ _ _) (base_follows _ _)). intros i. apply points_follow.
  Qed.

  (** a new brush *)
  Lemma new_idle : forall n g jv jb lo hi (b : brush), brush_new L n g jv jb lo hi = Ok b -> (0 < n -> index_ok (M := mix64) n) ->
    idle b /\ b_settings b = repeat (mapping_new (sng mix64) INPUTS_COUNT) SETTINGS_COUNT.
  Proof.
    intros n g jv jb lo hi b H Hn. pose proof (reachable_shape L b (r_new L n g jv jb lo hi b H Hn)) as Sh.
    unfold brush_new in H. apply obind_ok in H. destruct H as (mem & _ & H). cbv zeta in H. apply obind_ok in H. destruct H as (b1 & E1 & H). apply Ok_inj in H. subst b.
    assert (forall i, i <> STATE_FLIP -> st b1 i = f_of_Z 0) as St.
    { intros i Hi. assert (b_states b1 = upd (repeat (f_of_Z 0) STATES_COUNT) STATE_FLIP (f_of_Z (-1))) as Es.
      { unfold brush_reset in E1. cbv zeta in E1. cbn [with_states with_skip b_buckets] in E1. destruct mem as [mem|].
        - match type of E1 with (if ?c then _ else _) = _ => destruct c end; [apply obind_ok in E1; destruct E1 as (m & _ & E1)|]; apply Ok_inj in E1; rewrite <- E1; reflexivity.
        - apply Ok_inj in E1. rewrite <- E1. reflexivity. }
      unfold st. rewrite Es. clear - Hi.
      assert (forall (l : list f32) k v, k <> i -> nth i (upd l k v) (f_of_Z 0) = nth i l (f_of_Z 0)) as K.
      { clear. intros l. revert i. induction l as [|x l IH]; intros i k v Hk; [destruct k; reflexivity|]. destruct k as [|k], i as [|i]; cbn [upd nth]; auto; [destruct (Hk eq_refl)]. }
      change (@nofZ (sng mix64) 0) with (f_of_Z 0). refine (eq_trans (K _ _ _ _) _); [auto|]. apply nth_repeat. }
    destruct (reset_partial _ _ E1) as (_ & Fl).
    assert (b_settings b1 = repeat (mapping_new (sng mix64) INPUTS_COUNT) SETTINGS_COUNT /\ b_random b1 = d_of_Z 0) as (Es & Er).
    { unfold brush_reset in E1. cbv zeta in E1. cbn [with_states with_skip b_buckets] in E1. destruct mem as [mem|].
      - match type of E1 with (if ?c then _ else _) = _ => destruct c end; [apply obind_ok in E1; destruct E1 as (m & _ & E1)|]; apply Ok_inj in E1; rewrite <- E1; split; reflexivity.
      - apply Ok_inj in E1. rewrite <- E1. split; reflexivity. }
    split; [|exact Es].
    assert (zf 0 (f_of_Z 0) 0) as Z0 by (apply zf_Z; lia).
    split.
    - exact Sh.
    - change (zd 0 (b_random b1) 1). rewrite Er. eapply zd_weak; [apply zd_Z; lia|lia|lia].
    - right. change (st b1 STATE_FLIP = f_of_Z (-1)). exact Fl.
    - change (pen_near b1). split; [rewrite (St STATE_ACTUAL_X)|rewrite (St STATE_ACTUAL_Y)]; try (vm_compute; discriminate); (eapply zf_weak; [exact Z0|unfold K3; lia|unfold K3; lia]).
    - change (near_x 110002 2 b1). split; [rewrite (St STATE_X)|split; [rewrite (St STATE_Y)|rewrite (St STATE_PRESSURE)]]; try (vm_compute; discriminate); (eapply zf_weak; [exact Z0|lia|lia]).
    - change (fin (st b1 STATE_PARTIAL_DABS : f32) /\ (0 <= b2r (st b1 STATE_PARTIAL_DABS : f32) < 1)%R). rewrite (St STATE_PARTIAL_DABS) by (vm_compute; discriminate).
      destruct f0_val as (V0 & F0). split; [exact F0|]. change (b2r (f_of_Z 0)) with (b2r f0). rewrite V0. lra.
  Qed.

  Lemma stroke_settings : forall n (b : brush) w e a b' w', shape b -> stroke_to L n b w e = Ok (Some (a, b', w')) -> b_settings b' = b_settings b.
  Proof.
    intros n b w e a b' w' H O. unfold stroke_to in O. apply obind_ok in O. destruct O as ((t, e1) & _ & O).
    match type of O with (if ?c then _ else _) = _ => destruct c end; [|exact (proj1 (rest_drew L _ _ _ _ _ _ _ _ H O))].
    apply obind_ok in O. destruct O as ((t', e') & _ & O). apply obind_ok in O. destruct O as (r & E1 & O).
    destruct r as [((a1, b1), w1)|]; [|discriminate O]. pose proof (stroke_rest_shape L _ _ _ _ _ _ _ _ H E1) as H1.
    apply rest_drew in E1; [|exact H]. apply rest_drew in O; [|exact H1]. rewrite (proj1 O). apply E1.
  Qed.
End Brush.

(** *** What a program may do *)
(** [orderly begun painted picked l]: the pen is where a tablet can be, or the
    driver sends garbage; a symmetry has its centre within 65536, an angle within a
    million degrees and at most four million lines; between two calls of end_atomic the program either
    paints or picks colours; an array for the rectangles is passed to end_atomic
    only after a begin_atomic, and is as long as its length says *)
Fixpoint orderly (begun painted picked : bool) (l : list action) : Prop :=
  match l with
  | [] => True
  | Pen e :: l => event_ok e /\ picked = false /\ orderly begun true false l
  | Pick _ _ _ :: l => painted = false /\ orderly begun false true l
  | SetSymmetry active cx cy angle ty lines :: l => calm (Dab.SSym active cx cy angle ty lines) /\ orderly begun painted picked l
  | Begin _ _ :: l => orderly true painted picked l
  | End _ roi :: l =>
      match roi with None => True | Some (rects, cap) => begun = true /\ 1 <= cap <= Z.of_nat (length rects) end /\ orderly begun false false l
  | _ :: l => orderly begun painted picked l
  end.
(** the snowflake symmetry is chosen only if the allocation of its rectangles
    cannot fail *)
Definition no_flake (a : action) : Prop := match a with SetSymmetry _ _ _ _ ty _ => ty <> Snowflake | _ => True end.
Definition rects_found (a : action) : Prop := match a with Begin _ ok => ok = true | _ => True end.
Definition room_for_flakes (l : list action) : Prop := Forall no_flake l \/ Forall rects_found l.
Definition fitting (all : Prop) (a : action) : Prop := (all -> rects_found a) /\ (~ all -> no_flake a).
Lemma room_fits : forall l, room_for_flakes l -> exists all : Prop, (all \/ ~ all) /\ Forall (fitting all) l.
Proof.
  intros l [H|H]; [exists False|exists True]; (split; [tauto|]); eapply Forall_impl; try exact H; intros a Ha; split; tauto.
Qed.

(** every change of the settings is accepted, and at every pen event the settings
    are in range *)
Fixpoint in_tune (ms : settings) (l : list action) : Prop :=
  match l with
  | [] => True
  | a :: l => (match a with Pen _ => tuned ms | _ => True end) /\ exists ms', settings_after ms a = Ok ms' /\ in_tune ms' l
  end.

Section Program.
  Variables (trig : Mask.trig_oracle) (G : trigops num32) (L : mathlib mix64).
  Variables (rng : Type) (next : rng -> outcome (f64 * rng)).
  Variable get : Dab.tsurf -> f32 -> f32 -> f32 -> f32 -> outcome (rgba mix64 * Dab.tsurf).
  Variables (all : Prop) (Dec : all \/ ~ all).
  Hypotheses (T : trig_ok trig) (TK : turns_ok G) (EM : easel_maths L) (FR : forall g, exists r g', next g = Ok (r, g') /\ zd 0 r 1).
  Variable ts0 : Dab.tsurf.
  Notation E := (easel G rng next get).
  Notation holds := (holds all trig G ts0).

  Lemma run_ok : forall fuel l (b : brush E) (w : world E) begun painted picked, idle b -> holds begun painted picked (w_surf w) -> (painted = false \/ picked = false) ->
    orderly begun painted picked l -> Forall (fitting all) l -> in_tune (b_settings b) l -> exists r, run trig G L rng next get fuel (b, w) l = Ok r.
  Proof.
    intros fuel. induction l as [|a l IH]; intros b w begun painted picked I H Or O Ft Tn; cbn [run]; [eauto|].
    assert (fitting all a /\ Forall (fitting all) l) as ((Fa & Fn) & Fl) by (inversion Ft; subst; auto).
    cbn [in_tune] in Tn. destruct Tn as (Tp & ms & Ea & Tn).
    assert (forall b', b_settings b' = ms -> idle b' -> orderly begun painted picked l -> exists r, run trig G L rng next get fuel (b', w) l = Ok r) as Edit.
    { intros b' <- I' O'. eapply IH; eauto. }
    destruct a as [e| | | |id v|id input n|id input k x y|sa scx scy san sty sli|ok1 ok2|canw canr rows|can roi]; cbn [orderly settings_after] in *; cbn [act brush_call surface_call run_call].
    - (* a pen event *)
      apply Ok_inj in Ea. subst ms. destruct O as (Oe & -> & O).
      assert (holds begun true false (w_surf w)) as H1 by (eapply holds_weak; eauto; discriminate).
      destruct (stroke_to_ok L (E := E) EM FR (fun ts => holds begun true false ts)) with (n := fuel) (b := b) (w := w) (e := e) as (r & Es & Gr); auto.
      { intros sf d Hs D. cbn [e_draw easel]. destruct (holds_draw all Dec trig G T TK ts0 begun sf d Hs D) as (ts' & m & -> & H'). cbn [obind]. eauto. }
      { apply idle_rested; auto. }
      rewrite Es. cbn [obind]. destruct r as [((a, b1), w1)|]; cbn [option_map]; [|eauto].
      destruct (Gr a b1 w1 eq_refl) as (R1 & H2). pose proof (stroke_settings L _ _ _ _ _ _ _ (id_shape _ I) Es) as Ss.
      eapply IH; [apply rested_idle; exact R1|exact H2|right; reflexivity|exact O|exact Fl|rewrite Ss; exact Tn].
    - apply Ok_inj in Ea. subst ms. cbn [obind]. eapply IH; eauto. destruct I as [A B C D F P]. split; [exact A|exact B|exact C|exact D|exact F|exact P].
    - apply Ok_inj in Ea. subst ms. cbn [obind]. eapply IH; eauto. destruct I as [A B C D F P]. split; [exact A|exact B|exact C|exact D|exact F|exact P].
    - destruct (defaults_follow L (E := E) b ms I Ea) as (b' & -> & Sb & Ib). cbn [obind]. apply Edit; auto.
    - destruct (base_follows L (E := E) id v b ms I Ea) as (b' & -> & Sb & Ib). cbn [obind]. apply Edit; auto.
    - destruct (points_follow (E := E) id input n b ms I Ea) as (b' & -> & Sb & Ib). cbn [obind]. apply Edit; auto.
    - destruct (point_follows (E := E) id input k x y b ms I Ea) as (b' & -> & Sb & Ib). cbn [obind]. apply Edit; auto.
    - apply Ok_inj in Ea. subst ms. destruct O as (Cm & O). destruct (holds_step all Dec trig G T TK ts0 begun painted picked (w_surf w) (Dab.SSym sa scx scy san sty sli) painted picked H Cm) as (ts' & r & Es & H'); try exact Logic.I; try (intros d Dd; discriminate Dd); try (cbn; auto; discriminate); auto.
      { intros _. split; [intros ->; split; [reflexivity|discriminate]|]. split; [intros ->; auto|exact Or]. }
      rewrite Es. cbn [obind]. eapply IH; [exact I|cbn [w_surf]; exact H'|exact Or|cbn [P_Complete.is_begin]; rewrite orb_false_r; exact O|exact Fl|exact Tn].
    - apply Ok_inj in Ea. subst ms. destruct (holds_step all Dec trig G T TK ts0 begun painted picked (w_surf w) (Dab.SBegin ok1 ok2) painted picked H) as (ts' & r & Es & H'); try exact Logic.I; try (intros d Dd; discriminate Dd); try (cbn; auto; discriminate).
      { intros _. split; [intros ->; split; [reflexivity|discriminate]|]. split; [intros ->; auto|exact Or]. }
      rewrite Es. cbn [obind]. eapply IH; [exact I|cbn [w_surf]; exact H'|exact Or|cbn [P_Complete.is_begin]; rewrite orb_true_r; exact O|exact Fl|exact Tn].
    - apply Ok_inj in Ea. subst ms. destruct O as (-> & O). destruct (holds_step all Dec trig G T TK ts0 begun false picked (w_surf w) (Dab.SRead canw canr rows) false true H) as (ts' & r & Es & H'); try exact Logic.I; try (intros d Dd; discriminate Dd); try (cbn; auto; discriminate).
      { intros _. split; [intros _; split; [reflexivity|discriminate]|]. split; [discriminate|left; reflexivity]. }
      rewrite Es. cbn [obind]. eapply IH; [exact I|cbn [w_surf]; exact H'|left; reflexivity|cbn [P_Complete.is_begin]; rewrite orb_false_r; exact O|exact Fl|exact Tn].
    - apply Ok_inj in Ea. subst ms. destruct O as (Or' & O). destruct (holds_step all Dec trig G T TK ts0 begun painted picked (w_surf w) (Dab.SEnd can roi) false false H) as (ts' & r & Es & H'); try exact Logic.I; try (intros d Dd; discriminate Dd); try (cbn; auto; discriminate).
      rewrite Es. cbn [obind]. eapply IH; [exact I|cbn [w_surf]; exact H'|left; reflexivity|cbn [P_Complete.is_begin]; rewrite orb_false_r; exact O|exact Fl|exact Tn].
  Qed.
End Program.
