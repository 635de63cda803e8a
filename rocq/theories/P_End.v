(** Property C53: every pen event comes to an end.  The dabs of an event are set
    by a loop whose length depends on float arithmetic: each round moves the brush
    by a fraction of the way that is left, and counts the dabs to go again.  For
    all brushes whose spacing fits the size of the picture the loop ends, after a
    number of dabs that can be told in advance. *)
From Verif Require Import Base F32 F32Proofs Arith Color Mapping P_Mapping Settings Spectral Brush BrushProofs BrushSettings DabSeen BrushInst BrushToy
  Queue Blend Rect Symmetry Mask Plumb Paint EaselNum EaselDab EaselProofs EaselRun SymReach SymCopies Easel EaselSurf EaselProg EaselDefaults EndNum EaselEnd EaselLast P_Easel.
From Verif Require Dab P_Mask P_Blend P_Dab P_Complete HistoryProofs P_Mapping P_Abort.
From Coq Require Import Reals Lra.
From Flocq Require Import Core.Core IEEE754.BinarySingleNaN.
From Flocq Require Import Relative Plus_error.
Local Open Scope Z_scope.

(** The spacing of a brush: at most [actual] dabs per actual radius, [basic] dabs
    per basic radius and [second] dabs per second, whatever the inputs are. *)
Record spacing := mkSpacing { actual : R; basic : R; second : R }.
Definition sane (p : spacing) : Prop := (0 <= actual p <= 1000 /\ 0 <= basic p <= 1000 /\ 0 <= second p <= 1000)%R.
(** settings within the ranges of C52, with that spacing, and round dabs *)
Definition spaced (p : spacing) (ms : settings) : Prop := measured (actual p) (basic p) (second p) ms.
(** no tracking noise *)
Definition no_noise (ms : settings) : Prop := forall m, nth_error ms SET_TRACKING_NOISE = Some m -> (b2r (mp_base m : f32) <= 0)%R.
(** the event is within [size] pixels of the origin in both directions, or its
    position is not a proper number *)
Definition within (size : Z) (e : event mix64) : Prop := garbage e \/ (zf (- size) (ev_x e) size /\ zf (- size) (ev_y e) size).
(** how far the brush can get from the origin *)
Inductive span (size : Z) (ms : settings) : Z -> Prop :=
| span_calm : no_noise ms -> span size ms (size + 1)
| span_noise : span size ms 110001.
(** the picture is not too large for the spacing; for 2 dabs per radius this is
    no restriction, for 12 it is a size up to 24996 *)
Definition fits (p : spacing) (reach : Z) : Prop := 1 <= reach <= 110001 /\ ((actual p + basic p) * (IZR reach + 3) <= 300000)%R.
(** and the number of dabs of one event *)
Definition most (p : spacing) (reach : Z) : R := (130 * ((actual p + basic p) * (IZR reach + 3)) + 100 * second p + 10)%R.

(** at every pen event of the program the brush is spaced and the event is near *)
Fixpoint in_pace (p : spacing) (size reach : Z) (ms : settings) (l : list action) : Prop :=
  match l with
  | [] => True
  | a :: l => (match a with Pen e => spaced p ms /\ within size e /\ span size ms reach | _ => True end) /\ exists ms', settings_after ms a = Ok ms' /\ in_pace p size reach ms' l
  end.

Section C53.
  Variables (trig : Mask.trig_oracle) (G : trigops num32) (L : mathlib mix64).
  Variables (rng : Type) (next : rng -> outcome (f64 * rng)).
  Variable get : Dab.tsurf -> f32 -> f32 -> f32 -> f32 -> outcome (rgba mix64 * Dab.tsurf).
  Notation E := (easel G rng next get).

  Lemma new_going : forall p reach n g jv jb lo hi (b : brush E), sane p -> 1 <= reach -> brush_new L n g jv jb lo hi = Ok b -> going (actual p) (basic p) (second p) reach b.
  Proof.
    intros p q n g jv jb lo hi b (Sa & Sb & Ss) Hq H.
    unfold brush_new in H. apply obind_ok in H. destruct H as (mem & _ & H). cbv zeta in H. apply obind_ok in H. destruct H as (b1 & E1 & H). apply Ok_inj in H. subst b.
    assert (b_states b1 = upd (repeat (f_of_Z 0) STATES_COUNT) STATE_FLIP (f_of_Z (-1)) /\ b_skipped b1 = f_of_Z 0) as (Es & Ek).
    { unfold brush_reset in E1. cbv zeta in E1. cbn [with_states with_skip b_buckets] in E1. destruct mem as [mem|].
      - match type of E1 with (if ?c then _ else _) = _ => destruct c end; [apply obind_ok in E1; destruct E1 as (m & _ & E1)|]; apply Ok_inj in E1; rewrite <- E1; split; reflexivity.
      - apply Ok_inj in E1. rewrite <- E1. split; reflexivity. }
    assert (forall i, i <> STATE_FLIP -> st b1 i = f_of_Z 0) as St.
    { intros i Hi. unfold st. rewrite Es. clear - Hi.
      assert (forall (l : list f32) k v, k <> i -> nth i (upd l k v) (f_of_Z 0) = nth i l (f_of_Z 0)) as K.
      { clear. intros l. revert i. induction l as [|x l IH]; intros i k v Hk; [destruct k; reflexivity|]. destruct k as [|k], i as [|i]; cbn [upd nth]; auto; [destruct (Hk eq_refl)]. }
      change (@nofZ (sng mix64) 0) with (f_of_Z 0). refine (eq_trans (K _ _ _ _) _); [auto|]. apply nth_repeat. }
    destruct (zf_Z 0) as ((F0 & _) & V0); [lia|]. cut (going (actual p) (basic p) (second p) q b1); [intros [[P1 P2 P3 P4 P5] A B C]; split; [split; assumption|exact A|exact B|exact C]|].
    split.
    - split; rewrite St by discriminate; rewrite V0; (split; [exact F0|simpl; try lra]).
    - rewrite St by discriminate. eapply zf_weak; [apply zf_Z; lia|lia|lia].
    - rewrite St by discriminate. eapply zf_weak; [apply zf_Z; lia|lia|lia].
    - rewrite Ek. apply ahead_pos; [exact F0|]. change (0 <= b2r (f_of_Z 0))%R. rewrite V0. simpl. lra.
  Qed.

  (** changes of the settings do not touch the states *)
  Definition leaves (f : brush E -> outcome (brush E)) : Prop := forall b b', f b = Ok b' -> b_states b' = b_states b /\ b_skipped b' = b_skipped b.
  Lemma leaves_bind : forall f1 f2, leaves f1 -> leaves f2 -> leaves (fun b => let* b := f1 b in f2 b).
  Proof. intros f1 f2 H1 H2 b b' H. apply obind_ok in H. destruct H as (b1 & E1 & H). destruct (H1 _ _ E1) as (A & B). destruct (H2 _ _ H) as (C & D). split; [rewrite C; exact A|rewrite D; exact B]. Qed.
  Lemma leaves_fold : forall {A} (f : brush E -> A -> outcome (brush E)) (l : list A), (forall x, leaves (fun b => f b x)) -> leaves (fun b => ofold f l b).
  Proof.
    intros A f l H. induction l as [|x l IH]; intros b b' Hm; cbn [ofold] in Hm; [apply Ok_inj in Hm; subst b'; auto|].
    apply obind_ok in Hm. destruct Hm as (b1 & E1 & Hm). destruct (H x _ _ E1) as (A1 & A2). destruct (IH _ _ Hm) as (A3 & A4). split; [rewrite A3; exact A1|rewrite A4; exact A2].
  Qed.
  Lemma base_leaves : forall id v, leaves (fun b => set_base_value L b id v).
  Proof. intros id v b b' H. unfold set_base_value in H. apply obind_ok in H. destruct H as (m & _ & H). apply Ok_inj in H. subst b'. split; reflexivity. Qed.
  Lemma points_leave : forall id i n, leaves (fun b => set_mapping_n b id i n).
  Proof. intros id i n b b' H. unfold set_mapping_n in H. apply obind_ok in H. destruct H as (m & _ & H). apply obind_ok in H. destruct H as (m' & _ & H). apply Ok_inj in H. subst b'. split; reflexivity. Qed.
  Lemma point_leaves : forall id i k x y, leaves (fun b => set_mapping_point b id i k x y).
  Proof. intros id i k x y b b' H. unfold set_mapping_point in H. apply obind_ok in H. destruct H as (m & _ & H). apply obind_ok in H. destruct H as (m' & _ & H). apply Ok_inj in H. subst b'. split; reflexivity. Qed.
  Lemma defaults_leave : leaves (fun b => from_defaults L b).
  Proof.
    unfold from_defaults. cbv zeta. refine (leaves_bind _ _ (leaves_fold _ _ _) (leaves_bind _ _ (points_leave _ _ _) (leaves_bind _ _ (point_leaves _ _ _ _ _) (point_leaves _ _ _ _ _)))).
    intros id. refine (leaves_bind _ _ (leaves_fold _ _ _) (base_leaves _ _)). intros i. apply points_leave.
  Qed.
  Lemma going_keep : forall p q (b b' : brush E), going (actual p) (basic p) (second p) q b -> b_states b' = b_states b -> b_skipped b' = b_skipped b -> going (actual p) (basic p) (second p) q b'.
  Proof. intros p q b b' [[P1 P2 P3 P4 P5] A B C] H1 H2. unfold st in *. rewrite <- H1 in *. rewrite <- H2 in C. split; [split; assumption|exact A|exact B|exact C]. Qed.

  Section Run.
  Variables (all : Prop) (Dec : all \/ ~ all).
  Hypotheses (T : trig_ok trig) (TK : turns_ok G) (EM : easel_maths L) (HF : hypot_fair L) (FR : fair_numbers next).
  Variable ts0 : Dab.tsurf.
  Variables (p : spacing) (size q : Z).
  Hypotheses (Sp : sane p) (Fq : fits p q) (Hz : 0 <= size <= 65536).
  Notation holds := (holds all trig G ts0). Notation going := (going (actual p) (basic p) (second p) q).

  Lemma run_end : forall fuel l (b : brush E) (w : world E) begun painted picked, (most p q <= INR fuel)%R -> idle b -> going b -> holds begun painted picked (w_surf w) -> (painted = false \/ picked = false) ->
    orderly begun painted picked l -> Forall (fitting all) l -> in_pace p size q (b_settings b) l -> exists r, run trig G L rng next get fuel (b, w) l = Ok (Some r).
  Proof.
    intros fuel. induction l as [|a l IH]; intros b w begun painted picked Hf I Go H Or O Ft Tn; cbn [run]; [eauto|].
    assert (fitting all a /\ Forall (fitting all) l) as ((Fa & Fn) & Fl) by (inversion Ft; subst; auto).
    cbn [in_pace] in Tn. destruct Tn as (Tp & ms & Ea & Tn).
    assert (forall b', b_settings b' = ms -> b_states b' = b_states b -> b_skipped b' = b_skipped b -> idle b' -> orderly begun painted picked l -> exists r, run trig G L rng next get fuel (b', w) l = Ok (Some r)) as Edit.
    { intros b' <- S1 S2 I' O'. eapply IH; eauto. eapply going_keep; eauto. }
    destruct a as [e| | | |id v|id input n|id input k x y|sa scx scy san sty sli|ok1 ok2|canw canr rows|can roi]; cbn [orderly settings_after] in *; cbn [act brush_call surface_call run_call].
    - (* a pen event *)
      apply Ok_inj in Ea. subst ms. destruct O as (Oe & -> & O). destruct Tp as (Ts & Tw & Tq). destruct Sp as (Sa & Sb & Ss). destruct Fq as (Hq & Hd).
      assert (holds begun true false (w_surf w)) as H1 by (eapply holds_weak; eauto; discriminate).
      destruct (stroke_end L (E := E) EM HF (actual p) (basic p) (second p) 1 Sa Sb Ss ltac:(lra) FR (fun ts => holds begun true false ts)) with (q := q) (m := size) (n := fuel) (c := b) (w := w) (e := e) as (x & b1 & w1 & Es & R1 & H2 & G1 & S1); auto.
      { intros sf d Hs D. cbn [e_draw easel]. destruct (holds_draw all Dec trig G T TK ts0 begun sf d Hs D) as (ts' & m & -> & H'). cbn [obind]. eauto. }
      { rewrite Rmult_1_r. exact Hd. }
      { apply idle_rested; auto. apply Ts. }
      { clear - Tq. destruct Tq as [N|]; [right|left; reflexivity]. split; [lia|exact N]. }
      { unfold enough. rewrite Rmult_1_r. exact Hf. }
      rewrite Es. cbn [obind option_map].
      eapply IH; [exact Hf|apply rested_idle; exact R1|exact G1|exact H2|right; reflexivity|exact O|exact Fl|rewrite S1; exact Tn].
    - apply Ok_inj in Ea. subst ms. cbn [obind]. eapply IH; [exact Hf| |eapply going_keep; [exact Go|reflexivity|reflexivity]|exact H|exact Or|exact O|exact Fl|exact Tn]. destruct I as [A B C D F P]. split; [exact A|exact B|exact C|exact D|exact F|exact P].
    - apply Ok_inj in Ea. subst ms. cbn [obind]. eapply IH; [exact Hf| |eapply going_keep; [exact Go|reflexivity|reflexivity]|exact H|exact Or|exact O|exact Fl|exact Tn]. destruct I as [A B C D F P]. split; [exact A|exact B|exact C|exact D|exact F|exact P].
    - destruct (defaults_follow L (E := E) b ms I Ea) as (b' & Eb & Sb & Ib). rewrite Eb. cbn [obind]. destruct (defaults_leave _ _ Eb). apply Edit; auto.
    - destruct (base_follows L (E := E) id v b ms I Ea) as (b' & Eb & Sb & Ib). rewrite Eb. cbn [obind]. destruct (base_leaves _ _ _ _ Eb). apply Edit; auto.
    - destruct (points_follow (E := E) id input n b ms I Ea) as (b' & Eb & Sb & Ib). rewrite Eb. cbn [obind]. destruct (points_leave _ _ _ _ _ Eb). apply Edit; auto.
    - destruct (point_follows (E := E) id input k x y b ms I Ea) as (b' & Eb & Sb & Ib). rewrite Eb. cbn [obind]. destruct (point_leaves _ _ _ _ _ _ _ Eb). apply Edit; auto.
    - apply Ok_inj in Ea. subst ms. destruct O as (Cm & O). destruct (holds_step all Dec trig G T TK ts0 begun painted picked (w_surf w) (Dab.SSym sa scx scy san sty sli) painted picked H Cm) as (ts' & r & Es & H'); try exact Logic.I; try (intros d Dd; discriminate Dd); try (cbn; auto; discriminate); auto.
      { intros _. split; [intros ->; split; [reflexivity|discriminate]|]. split; [intros ->; auto|exact Or]. }
      rewrite Es. cbn [obind]. eapply IH; [exact Hf|exact I|exact Go|cbn [w_surf]; exact H'|exact Or|cbn [P_Complete.is_begin]; rewrite orb_false_r; exact O|exact Fl|exact Tn].
    - apply Ok_inj in Ea. subst ms. destruct (holds_step all Dec trig G T TK ts0 begun painted picked (w_surf w) (Dab.SBegin ok1 ok2) painted picked H) as (ts' & r & Es & H'); try exact Logic.I; try (intros d Dd; discriminate Dd); try (cbn; auto; discriminate).
      { intros _. split; [intros ->; split; [reflexivity|discriminate]|]. split; [intros ->; auto|exact Or]. }
      rewrite Es. cbn [obind]. eapply IH; [exact Hf|exact I|exact Go|cbn [w_surf]; exact H'|exact Or|cbn [P_Complete.is_begin]; rewrite orb_true_r; exact O|exact Fl|exact Tn].
    - apply Ok_inj in Ea. subst ms. destruct O as (-> & O). destruct (holds_step all Dec trig G T TK ts0 begun false picked (w_surf w) (Dab.SRead canw canr rows) false true H) as (ts' & r & Es & H'); try exact Logic.I; try (intros d Dd; discriminate Dd); try (cbn; auto; discriminate).
      { intros _. split; [intros _; split; [reflexivity|discriminate]|]. split; [discriminate|left; reflexivity]. }
      rewrite Es. cbn [obind]. eapply IH; [exact Hf|exact I|exact Go|cbn [w_surf]; exact H'|left; reflexivity|cbn [P_Complete.is_begin]; rewrite orb_false_r; exact O|exact Fl|exact Tn].
    - apply Ok_inj in Ea. subst ms. destruct O as (Or' & O).
      destruct (holds_step all Dec trig G T TK ts0 begun painted picked (w_surf w) (Dab.SEnd can roi) false false H) as (ts' & r & Es & H'); try exact Logic.I; try (intros d Dd; discriminate Dd); try (cbn; auto; discriminate).
      rewrite Es. cbn [obind]. eapply IH; [exact Hf|exact I|exact Go|cbn [w_surf]; exact H'|left; reflexivity|cbn [P_Complete.is_begin]; rewrite orb_false_r; exact O|exact Fl|exact Tn].
  Qed.
  End Run.

  (** Every program that is orderly and keeps its brush spaced ends: no action
      aborts or is undefined, and no pen event needs more than [most] dabs - the
      loops are given [fuel] dabs, and never run out of them.
      Missing (hence partial): what is missing in C52, and elliptical dabs. *)
  Theorem C53_program_ends_partial : forall ok junk pix0 ts0 buckets g values bucket_memory lo hi (b : brush E) mixed_ fuel program p size reach,
    trig_ok trig -> turns_ok G -> easel_maths L -> hypot_fair L -> fair_numbers next ->
    Dab.tiled_surface_init G ok junk pix0 = Ok ts0 -> P_Dab.canvas pix0 -> (forall X Y, P_Blend.valid (HistoryProofs.pixel_of pix0 X Y)) ->
    brush_new L buckets g values bucket_memory lo hi = Ok b -> buckets <= 16777217 ->
    sane p -> fits p reach -> 0 <= size <= 65536 -> (most p reach <= INR fuel)%R ->
    orderly false false false program -> room_for_flakes program -> in_pace p size reach fresh_settings program ->
    exists b' w', run trig G L rng next get fuel (b, mkWorld (E := E) ts0 mixed_) program = Ok (Some (b', w')).
  Proof.
    intros ok junk pix0 ts0 buckets g jv jb lo hi b mx fuel program p size q T TK EM HF FR I0 C0 V0 Nb Hb Sp Fq Hz Hf O Rm Tn. destruct (room_fits _ Rm) as (all & Dec & Ft).
    destruct (new_idle L (E := E) buckets g jv jb lo hi b Nb) as (Ib & Sb); [intros; apply index_ok_64; lia|].
    destruct (run_end all Dec T TK EM HF FR ts0 p size q Sp Fq Hz fuel program b (mkWorld (E := E) ts0 mx) false false false) as ((b', w') & Er); auto.
    - apply (new_going p q buckets g jv jb lo hi b Sp (proj1 (proj1 Fq)) Nb).
    - exact (holds_init all trig G ts0 ok junk pix0 I0 C0 V0).
    - rewrite Sb. exact Tn.
    - eauto.
  Qed.
End C53.

(** *** The default brush *)
Definition default_spacing : spacing := mkSpacing 2 0 0.
Definition plain (ms : settings) : Prop :=
  tuned ms /\ length ms = SETTINGS_COUNT /\ (forall i m, nth_error ms i = Some m -> i <> SET_OPAQUE_MULTIPLY -> mp_used m = 0) /\
  (forall i m, nth_error ms i = Some m -> In i [SET_DABS_PER_ACTUAL_RADIUS; SET_DABS_PER_BASIC_RADIUS; SET_DABS_PER_SECOND; SET_ELLIPTICAL_DAB_RATIO; SET_TRACKING_NOISE] -> mp_base m = default_value i).

Lemma plain_spaced : forall ms, plain ms -> spaced default_spacing ms /\ no_noise ms.
Proof.
  intros ms (T & _ & U & B).
  assert (forall i m (P : f32 -> Prop), nth_error ms i = Some m -> In i [SET_DABS_PER_ACTUAL_RADIUS; SET_DABS_PER_BASIC_RADIUS; SET_DABS_PER_SECOND; SET_ELLIPTICAL_DAB_RATIO; SET_TRACKING_NOISE] -> i <> SET_OPAQUE_MULTIPLY -> P (default_value i) -> yields m P) as Y.
  { intros i m P N I Ne HP data _ _ _. unfold mapping_calculate. rewrite (U i m N Ne). cbn [Z.eqb]. exists (mp_base m). split; [reflexivity|]. rewrite (B i m N I). exact HP. }
  split.
  - split; [exact T| | | |]; intros m N; apply (Y _ m _ N); try (cbn; auto 9); try (vm_compute; discriminate).
    + destruct (fconst 2 2 (default_value SET_DABS_PER_ACTUAL_RADIUS)) as (F & H); [lia|lia|vm_compute; reflexivity|]. split; [exact F|exact (proj2 H)].
    + destruct (fconst 0 0 (default_value SET_DABS_PER_BASIC_RADIUS)) as (F & H); [lia|lia|vm_compute; reflexivity|]. split; [exact F|exact (proj2 H)].
    + destruct (fconst 0 0 (default_value SET_DABS_PER_SECOND)) as (F & H); [lia|lia|vm_compute; reflexivity|]. split; [exact F|exact H].
    + destruct (fconst 1 1 (default_value SET_ELLIPTICAL_DAB_RATIO)) as (F & H); [lia|lia|vm_compute; reflexivity|]. split; [exact F|exact (proj2 H)].
  - intros m N. rewrite (B _ m N) by (cbn; auto 9). destruct (fconst 0 0 (default_value SET_TRACKING_NOISE)) as (F & H); [lia|lia|vm_compute; reflexivity|]. exact (proj2 H).
Qed.
Lemma defaults_plain : exists ms, settings_after fresh_settings LoadDefaults = Ok ms /\ plain ms.
Proof. destruct (defaults_tuned fresh_settings fresh_ok) as (ms & Ed & Tm & Ln & Us & Bs). exists ms. split; [exact Ed|]. split; [exact Tm|]. split; [exact Ln|]. split; [exact Us|]. intros i m N _. apply Bs. exact N. Qed.
Lemma base_plain : forall ms i (x : f32), plain ms -> (i < SETTINGS_COUNT)%nat -> ~ In i [SET_OPAQUE_MULTIPLY; SET_LOCK_ALPHA; SET_PAINT_MODE; SET_DABS_PER_ACTUAL_RADIUS; SET_DABS_PER_BASIC_RADIUS; SET_DABS_PER_SECOND; SET_ELLIPTICAL_DAB_RATIO; SET_TRACKING_NOISE] ->
  (forall P, In (i, P) ranges -> P x) -> (forall P, In (i, P) base_ranges -> P x) -> exists ms', settings_after ms (SetBase (Z.of_nat i) x) = Ok ms' /\ plain ms'.
Proof.
  intros ms i x (T & Ln & U & B) Hi Ni R1 R2. destruct (nth_error ms i) as [m|] eqn:N; [|apply nth_error_None in N; lia].
  destruct (base_tuned ms i m x T Ln Hi N) as (ms2 & Ee & T2 & L2 & U2); auto; try (intros ->; apply Ni; cbn; auto 9); [apply (U i m N); intros ->; apply Ni; cbn; auto 9|].
  exists ms2. split; [exact Ee|]. split; [exact T2|]. split; [exact L2|]. split.
  - intros j m' Nj Ne. destruct (U2 j m' Nj) as (m0 & N0 & -> & _). eauto.
  - intros j m' Nj Ij. destruct (U2 j m' Nj) as (m0 & N0 & _ & Eq). destruct (Nat.eq_dec j i) as [->|D]; [exfalso; apply Ni; cbn in Ij |- *; tauto|]. rewrite (Eq D). apply (B j m0 N0 Ij).
Qed.

Lemma in_pace_cons : forall p size reach ms a l ms', match a with Pen e => spaced p ms /\ within size e /\ span size ms reach | _ => True end -> settings_after ms a = Ok ms' -> in_pace p size reach ms' l -> in_pace p size reach ms (a :: l).
Proof. intros p size reach ms a l ms' A B C. split; [exact A|]. exists ms'. split; [exact B|exact C]. Qed.
Lemma strokes_in_pace : forall size ms l, plain ms -> (forall evs can e, In (evs, can) l -> In e evs -> within size e) -> in_pace default_spacing size (size + 1) ms (concat (map stroke l)).
Proof.
  intros size ms l P. destruct (plain_spaced ms P) as (Sp & Nn). induction l as [|(evs, can) l IH]; intros A; cbn [map concat]; [exact Logic.I|]. unfold stroke at 1. cbn [fst snd app in_pace settings_after].
  split; [exact Logic.I|]. exists ms. split; [reflexivity|].
  assert (forall e, In e evs -> within size e) as Ae by (intros e Ie; apply (A evs can e); [left; reflexivity|exact Ie]).
  assert (in_pace default_spacing size (size + 1) ms (concat (map stroke l))) as IH' by (apply IH; intros evs' can' e H1 H2; apply (A evs' can' e); [right; exact H1|exact H2]). clear IH A.
  induction evs as [|e evs IHe]; cbn [map app in_pace settings_after].
  - split; [exact Logic.I|]. exists ms. split; [reflexivity|exact IH'].
  - split; [split; [exact Sp|split; [apply Ae; left; reflexivity|apply span_calm; exact Nn]]|]. exists ms. split; [reflexivity|]. apply IHe. intros e' Ie. apply Ae. right. exact Ie.
Qed.

Section Default.
  Variables (trig : Mask.trig_oracle) (G : trigops num32) (L : mathlib mix64).
  Variables (rng : Type) (next : rng -> outcome (f64 * rng)).
  Variable get : Dab.tsurf -> f32 -> f32 -> f32 -> f32 -> outcome (rgba mix64 * Dab.tsurf).
  Notation E := (easel G rng next get).
  (** The default brush, in any colour and any radius from e^-6 to e^6, paints every
      sequence of strokes under any symmetry to its end; one event takes at most 260 dabs per pixel
      of the size of the picture (and 1050 more). *)
  Theorem C53_default_brush : forall ok junk pix0 ts0 buckets g values bucket_memory lo hi (b : brush E) mixed_ fuel h s v radius active cx cy angle ty lines strokes size,
    trig_ok trig -> turns_ok G -> easel_maths L -> hypot_fair L -> fair_numbers next ->
    Dab.tiled_surface_init G ok junk pix0 = Ok ts0 -> P_Dab.canvas pix0 -> (forall X Y, P_Blend.valid (HistoryProofs.pixel_of pix0 X Y)) ->
    brush_new L buckets g values bucket_memory lo hi = Ok b -> buckets <= 16777217 ->
    in_range (-1000000) 1000000 h -> any_number s -> any_number v -> in_range (-6) 6 radius ->
    in_range (-65536) 65536 cx -> in_range (-65536) 65536 cy -> in_range (-1000000) 1000000 angle -> lines <= 4000000 ->
    0 <= size <= 65536 -> (forall events can e, In (events, can) strokes -> In e events -> event_ok e /\ within size e) ->
    260 * size + 1050 <= Z.of_nat fuel ->
    exists b' w', run trig G L rng next get fuel (b, mkWorld (E := E) ts0 mixed_) (colour_and_size h s v radius ++ SetSymmetry active cx cy angle ty lines :: concat (map stroke strokes)) = Ok (Some (b', w')).
  Proof.
    intros ok junk pix0 ts0 buckets g jv jb lo hi b mx fuel h s v radius active cx cy angle ty lines strokes size T TK EM HF FR I0 C0 V0 Nb Hb Hh Hs Hv Hr Sx Sy Sa Sl Hz A Hf.
    assert (0 <= IZR size <= 65536)%R as Hz' by (split; apply IZR_le; lia).
    eapply (C53_program_ends_partial trig G L rng next get) with (p := default_spacing) (size := size) (reach := size + 1); eauto.
    - split; cbn; lra.
    - split; [lia|]. cbn [default_spacing actual basic]. rewrite plus_IZR. lra.
    - unfold most. cbn [default_spacing actual basic second]. rewrite plus_IZR, INR_IZR_INZ. apply Rle_trans with (IZR (260 * size + 1050)); [rewrite plus_IZR, mult_IZR; lra|apply IZR_le; exact Hf].
    - unfold colour_and_size. cbn [app orderly]. split; [exact (conj Sx (conj Sy (conj Sa Sl)))|]. apply strokes_orderly. intros evs can e I1 I2. apply (A evs can e I1 I2).
    - right. unfold colour_and_size. cbn [app]. repeat (constructor; [exact Logic.I|]). apply strokes_found.
    - destruct defaults_plain as (ms & Ed & Pm). unfold colour_and_size. cbn [app].
      apply (in_pace_cons _ _ _ _ _ _ ms); [exact Logic.I|exact Ed|].
      assert (forall ms i (x : f32) l, plain ms -> (i < SETTINGS_COUNT)%nat -> ~ In i [SET_OPAQUE_MULTIPLY; SET_LOCK_ALPHA; SET_PAINT_MODE; SET_DABS_PER_ACTUAL_RADIUS; SET_DABS_PER_BASIC_RADIUS; SET_DABS_PER_SECOND; SET_ELLIPTICAL_DAB_RATIO; SET_TRACKING_NOISE] ->
        (forall P, In (i, P) ranges -> P x) -> (forall P, In (i, P) base_ranges -> P x) -> (forall ms', plain ms' -> in_pace default_spacing size (size + 1) ms' l) -> in_pace default_spacing size (size + 1) ms (SetBase (Z.of_nat i) x :: l)) as Step.
      { intros ms' i x l Pm' Hi Ni R1 R2 K. destruct (base_plain ms' i x Pm' Hi Ni R1 R2) as (ms2 & Ee & P2). apply (in_pace_cons _ _ _ _ _ _ ms2); [exact Logic.I|exact Ee|]. apply K. exact P2. }
      assert (forall evs can e, In (evs, can) strokes -> In e evs -> within size e) as Aw by (intros evs can e I1 I2; apply (A evs can e I1 I2)).
      apply Step; [assumption|vm_compute; lia|vm_compute; intuition discriminate| | |].
      { intros P I. cbn in I. repeat (destruct I as [I|I]; [exfalso; apply (f_equal fst) in I; vm_compute in I; discriminate I|]). destruct I. }
      { intros P I. cbn in I. repeat (destruct I as [I|I]; [try (exfalso; apply (f_equal fst) in I; vm_compute in I; discriminate I); try (apply (f_equal snd) in I; cbn [snd] in I; subst P; assumption)|]). destruct I. }
      intros ms1 P1. apply Step; [assumption|vm_compute; lia|vm_compute; intuition discriminate| | |].
      { intros P I. cbn in I. repeat (destruct I as [I|I]; [exfalso; apply (f_equal fst) in I; vm_compute in I; discriminate I|]). destruct I. }
      { intros P I. cbn in I. repeat (destruct I as [I|I]; [try (exfalso; apply (f_equal fst) in I; vm_compute in I; discriminate I); try (apply (f_equal snd) in I; cbn [snd] in I; subst P; assumption)|]). destruct I. }
      intros ms2 P2. apply Step; [assumption|vm_compute; lia|vm_compute; intuition discriminate| | |].
      { intros P I. cbn in I. repeat (destruct I as [I|I]; [exfalso; apply (f_equal fst) in I; vm_compute in I; discriminate I|]). destruct I. }
      { intros P I. cbn in I. repeat (destruct I as [I|I]; [try (exfalso; apply (f_equal fst) in I; vm_compute in I; discriminate I); try (apply (f_equal snd) in I; cbn [snd] in I; subst P; assumption)|]). destruct I. }
      intros ms3 P3. apply Step; [assumption|vm_compute; lia|vm_compute; intuition discriminate| | |].
      { intros P I. cbn in I. repeat (destruct I as [I|I]; [try (exfalso; apply (f_equal fst) in I; vm_compute in I; discriminate I);
          try (apply (f_equal snd) in I; cbn [snd] in I; subst P; eapply zf_weak; [exact Hr|lia|lia])|]). destruct I. }
      { intros P I. cbn in I. repeat (destruct I as [I|I]; [try (exfalso; apply (f_equal fst) in I; vm_compute in I; discriminate I); try (apply (f_equal snd) in I; cbn [snd] in I; subst P; assumption)|]). destruct I. }
      intros ms4 P4. apply (in_pace_cons _ _ _ _ _ _ ms4); [exact Logic.I|reflexivity|]. apply strokes_in_pace; assumption.
  Qed.
End Default.

(** *** The hypotheses can be met *)
(** the sum of the sides in place of the hypotenuse *)
Lemma toy_hypot : hypot_fair toy_lib.
Proof.
  intros x y Fx Fy Bx By. change (hypotf_ toy_lib x y) with (fadd (fabs x) (fabs y)).
  assert (forall z : f32, fin z -> fin (fabs z) /\ b2r (fabs z) = Rabs (b2r z)) as Ab by (intros z Fz; split; [destruct z; exact Fz|apply B2R_Babs]).
  destruct (Ab x Fx) as (Gx & Vx). destruct (Ab y Fy) as (Gy & Vy). pose proof (Rabs_pos (b2r x)). pose proof (Rabs_pos (b2r y)).
  set (t := (Rabs (b2r x) + Rabs (b2r y))%R) in *. assert (b2r (fabs x) + b2r (fabs y) = t)%R as Et by (rewrite Vx, Vy; reflexivity).
  assert (0 <= t <= 4000000)%R as Bt by (unfold t; lra).
  destruct (add_large (fabs x) (fabs y) Gx Gy) as (Fa & Va); [rewrite Et, Rabs_pos_eq by lra; unfold large; lra|]. rewrite Et in Va. split; [exact Fa|]. rewrite Va.
  assert (rep32 (Rabs (b2r x)) /\ rep32 (Rabs (b2r y))) as (Rx & Ry) by (rewrite <- Vx, <- Vy; split; apply rep32_b2r). clear - Bt Rx Ry.
  split; [apply rnd32_ge_r; [apply (rep32_IZR 0); lia|simpl; lra]|].
  destruct (Rle_lt_dec t (bpow radix2 (24 + -149))) as [Lo|Hi].
  - rewrite rnd32_id; [lra|]. apply FLT_format_plus_small; [exact eq_refl|exact Rx|exact Ry|change (Rabs t <= bpow radix2 (24 + -149))%R; rewrite Rabs_pos_eq by lra; exact Lo].
  - pose proof (relative_error_N_FLT radix2 (-149) 24 eq_refl (fun x => negb (Z.even x)) t) as Er. rewrite (Rabs_pos_eq t) in Er by lra.
    change (round radix2 (FLT_exp (-149) 24) ZnearestE t) with (rnd32 t) in Er. assert (bpow radix2 (-149 + 24 - 1) <= t)%R as Hl by (apply Rle_trans with (2 := Rlt_le _ _ Hi); apply bpow_le; lia).
    specialize (Er Hl). change (bpow radix2 (- (24) + 1)) with (/ 8388608)%R in Er. apply Rabs_le_inv in Er. lra.
Qed.

Example C53_case : forall (points : list (list (Z * Z * Z))) ok junk ts0 b,
  (forall s x y t, In s points -> In (x, y, t) s -> Z.abs x <= 4096 /\ Z.abs y <= 4096) ->
  Dab.tiled_surface_init P_Dab.no_turn ok junk P_Dab.blank = Ok ts0 ->
  brush_new (E := easel P_Dab.no_turn unit (fun g => Ok (dlit 1 2, g)) (fun _ _ _ _ _ => UB)) toy_lib 256 tt [] [] 0 0 = Ok b ->
  exists b' w', run P_Mask.flat P_Dab.no_turn toy_lib unit (fun g => Ok (dlit 1 2, g)) (fun _ _ _ _ _ => UB) (Z.to_nat 1066010)
    (b, mkWorld (E := easel P_Dab.no_turn unit (fun g => Ok (dlit 1 2, g)) (fun _ _ _ _ _ => UB)) ts0 ((f0, f0, f0, f0) : rgba mix64))
    (colour_and_size f0 f1 f1 (f_of_Z 3) ++ SetSymmetry true (f_of_Z 100) (f_of_Z 50) f0 Snowflake 8 :: concat (map stroke (map (fun s => (map (fun '(x, y, t) => pen x y 50 t) s, fun _ => true)) points))) = Ok (Some (b', w')).
Proof.
  intros points ok junk ts0 b A I0 Nb. destruct f0_val as (V0 & F0). destruct f1_val as (V1 & F1).
  eapply (C53_default_brush P_Mask.flat P_Dab.no_turn toy_lib unit) with (size := 4096); [exact flat_trig|exact flat_turns|exact toy_maths|exact toy_hypot| |exact I0|exact P_Dab.blank_canvas| |exact Nb| | | | | | | | | | | |].
  - intros g. exists (dlit 1 2), g. split; [reflexivity|]. apply dconst; [lia|lia|vm_compute; reflexivity].
  - intros X Y. rewrite P_Complete.blank_pixels. unfold P_Blend.valid, P_Blend.full; cbn. lia.
  - lia.
  - apply fconst; [lia|lia|vm_compute; reflexivity].
  - exact F1.
  - exact F1.
  - apply fconst; [lia|lia|vm_compute; reflexivity].
  - apply fconst; [lia|lia|vm_compute; reflexivity].
  - apply fconst; [lia|lia|vm_compute; reflexivity].
  - apply fconst; [lia|lia|vm_compute; reflexivity].
  - lia.
  - lia.
  - intros evs can e I Ie. apply in_map_iff in I. destruct I as (s & Es & Is). injection Es as <- _. apply in_map_iff in Ie. destruct Ie as (((x, y), t) & <- & It).
    destruct (A s x y t Is It) as (Hx & Hy). split; [apply pen_ok; [lia|lia|vm_compute; reflexivity]|].
    right. split; (eapply zf_weak; [apply zf_Z; lia|lia|lia]).
  - rewrite Z2Nat.id by lia. lia.
Qed.
Print Assumptions C53_program_ends_partial.
Print Assumptions C53_default_brush.
