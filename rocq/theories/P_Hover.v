(** Hovering: a pen that moves without pressure paints nothing (C56).

    The usual brush gets the opacity of its dabs from the pressure.  While the pen
    only hovers the engine still simulates it and still draws dabs; this file
    proves that none of them can be seen, in C floats, however the events are
    interleaved with the other calls on the brush. *)
From Verif Require Import Base F32 F32Proofs Arith Color Mapping P_Mapping Settings Spectral Brush BrushProofs BrushInst ReturnProofs StepFacts DabFrame DabSeen
  EaselNum EaselDab EaselStep EaselRun EaselProg P_Reset P_Limits EaselDefaults P_Defaults BrushToy HoverProofs Queue Blend Rect Symmetry Mask Plumb Easel.
From Verif Require Dab.
From Coq Require Import Reals Lra.
From Flocq Require Import Core.Core IEEE754.BinarySingleNaN.
Local Open Scope Z_scope.

(** the pressure of an event: finite and at most [p] *)
Definition pressure_at_most (p : Z) (e : event mix64) : Prop := fin (ev_pressure e : f32) /\ (b2r (ev_pressure e : f32) <= IZR p)%R.
(** plus or minus zero *)
Definition nothing (v : f32) : Prop := feq v f0 = true.

Section Hover.
  Context (L : mathlib mix64) {E : env mix64}.
  Notation brush := (brush E).
  Notation world := (world E).

  (** the brushes a program can have that only makes the calls [ok] *)
  Inductive used (ok : call mix64 -> Prop) : brush -> Prop :=
  | u_new : forall n g jv jb lo hi b, brush_new L n g jv jb lo hi = Ok b -> (0 < n -> index_ok (M := mix64) n) -> used ok b
  | u_call : forall b fuel w c b' w', used ok b -> ok c -> run_call L fuel b w c = Ok (Some (b', w')) -> used ok b'
  | u_defaults : forall b b', used ok b -> from_defaults L b = Ok b' -> used ok b'.

  (** calls that do not write the pressure or the part of a dab that is left over
      into the brush by hand *)
  Definition not_by_hand (c : call mix64) : Prop :=
    match c with CState i _ => i <> Z.of_nat STATE_PRESSURE /\ i <> Z.of_nat STATE_PARTIAL_DABS | _ => True end.
  (** such calls, when no event has a pressure above one *)
  Definition ordinary (c : call mix64) : Prop :=
    match c with CStroke e => pressure_at_most 1 e | c => not_by_hand c end.

  (** without pressure the settings of the brush give no opacity *)
  Definition dry (b : brush) : Prop :=
    (exists g, get_base_value b (Z.of_nat SET_PRESSURE_GAIN_LOG) = Ok g /\ fin (expf_ L g : f32)) /\
    forall inputs values, length inputs = INPUTS_COUNT -> nothing (nth INP_PRESSURE inputs f0) -> calculate_all (b_settings b) inputs = Ok values ->
      nothing (nth SET_OPAQUE_MULTIPLY values f0) /\ fin (nth SET_OPAQUE values f0 : f32).

  (** hovering: events without pressure while the brush is dry, and any other call
      in between *)
  Inductive hovers : brush -> world -> brush -> world -> Prop :=
  | h_stop : forall b w, hovers b w b w
  | h_event : forall fuel b w e a b1 w1 b' w', dry b -> pressure_at_most 0 e -> stroke_to L fuel b w e = Ok (Some (a, b1, w1)) -> hovers b1 w1 b' w' -> hovers b w b' w'
  | h_call : forall fuel b w c b1 w1 b' w', (forall e, c <> CStroke e) -> not_by_hand c -> run_call L fuel b w c = Ok (Some (b1, w1)) -> hovers b1 w1 b' w' -> hovers b w b' w'
  | h_defaults : forall b w b1 b' w', from_defaults L b = Ok b1 -> hovers b1 w b' w' -> hovers b w b' w'.

  (** all that reaches the surface between [w] and [w'] are dabs without opacity
      (and reading) *)
  Definition unseen (w w' : world) : Prop :=
    exists ds, drew (w_surf w) ds (w_surf w') /\ Forall (fun d : dab mix64 => nothing (dab_opaque d)) ds.

  (** the pen is up: the brush starts afresh at the next event, or it has no
      pressure and less than one dab is left over *)
  Definition pen_up (b : brush) : Prop :=
    b_reset b = true \/
    exists p d, get_state b (Z.of_nat STATE_PRESSURE) = Ok p /\ nothing p /\
      get_state b (Z.of_nat STATE_PARTIAL_DABS) = Ok d /\ dle (d_of_Z 1) (d_of_f d) = false.

  (** *** proofs *)
  Lemma up_poised : forall b : brush, pen_up b <-> poised zero b.
  Proof.
    intros b. unfold pen_up, poised. change (get_state b (Z.of_nat STATE_PRESSURE)) with (Ok (st b STATE_PRESSURE)). change (get_state b (Z.of_nat STATE_PARTIAL_DABS)) with (Ok (st b STATE_PARTIAL_DABS)). split.
    - intros [H|(p & d & Ep & Np & Ed & Bd)]; [left; exact H|right]. apply Ok_inj in Ep, Ed. subst p d. split; [exact Np|exact Bd].
    - intros [H|(A & B)]; [left; exact H|right]. exists (st b STATE_PRESSURE), (st b STATE_PARTIAL_DABS). auto.
  Qed.
  Lemma dry_dried : forall b : brush, dry b -> dried L (b_settings b).
  Proof.
    intros b ((g & Eg & Fg) & D). split; [|exact D]. unfold get_base_value in Eg. apply obind_ok in Eg. destruct Eg as (m & Em & Eg). apply Ok_inj in Eg. exists m.
    unfold setting_of in Em. destruct (_ && _); [|discriminate Em]. rewrite Nat2Z.id in Em. destruct (nth_error (b_settings b) SET_PRESSURE_GAIN_LOG) as [m1|]; [|discriminate Em]. apply Ok_inj in Em. subst m1. split; [reflexivity|]. rewrite Eg. exact Fg.
  Qed.
  Definition keeps (f : brush -> outcome brush) : Prop := forall b b', shape b -> f b = Ok b' -> shape b'.
  Lemma keeps_bind : forall f1 f2, keeps f1 -> keeps f2 -> keeps (fun b => let* b := f1 b in f2 b).
  Proof. intros f1 f2 H1 H2 b b' Sh H. apply obind_ok in H. destruct H as (b1 & E1 & H). eauto. Qed.
  Lemma keeps_fold : forall {A} (f : brush -> A -> outcome brush) (l : list A), (forall x, keeps (fun b => f b x)) -> keeps (fun b => ofold f l b).
  Proof. intros A f l H. induction l as [|x l IH]; intros b b' Sh Hm; cbn [ofold] in Hm; [apply Ok_inj in Hm; subst b'; auto|]. apply obind_ok in Hm. destruct Hm as (b1 & E1 & Hm). eapply IH; [|exact Hm]. eapply H; eauto. Qed.
  Lemma base_keeps : forall id (v : sng mix64), keeps (fun b => set_base_value L b id v).
  Proof.
    intros id v b b' H E1. unfold set_base_value in E1. apply obind_ok in E1. destruct E1 as (m & Em & E1). apply Ok_inj in E1. subst b'. apply setting_of_ok in Em; [|apply H]. destruct Em as (_ & _ & es & Em). destruct H as (A & B & C & D). split; [exact A|]. split; [|split; [exact C|exact D]]. apply (settings_upd (M := mix64)); [exact B|]. apply (edited_more (M := mix64) es m (P_Mapping.SetBase v)); auto.
  Qed.
  Lemma points_keep : forall id i n, keeps (fun b => set_mapping_n b id i n).
  Proof.
    intros id i n b b' H E1. unfold set_mapping_n in E1. apply obind_ok in E1. destruct E1 as (m & Em & E1). apply obind_ok in E1. destruct E1 as (m' & Em' & E1). apply Ok_inj in E1. subst b'. apply setting_of_ok in Em; [|apply H]. destruct Em as (_ & _ & es & Em). destruct H as (A & B & C & D). split; [exact A|]. split; [|split; [exact C|exact D]]. apply (settings_upd (M := mix64)); [exact B|]. apply (edited_more (M := mix64) es m (P_Mapping.SetN i n)); auto.
  Qed.
  Lemma point_keeps : forall id i k (x y : sng mix64), keeps (fun b => set_mapping_point b id i k x y).
  Proof.
    intros id i k x y b b' H E1. unfold set_mapping_point in E1. apply obind_ok in E1. destruct E1 as (m & Em & E1). apply obind_ok in E1. destruct E1 as (m' & Em' & E1). apply Ok_inj in E1. subst b'. apply setting_of_ok in Em; [|apply H]. destruct Em as (_ & _ & es & Em). destruct H as (A & B & C & D). split; [exact A|]. split; [|split; [exact C|exact D]]. apply (settings_upd (M := mix64)); [exact B|]. apply (edited_more (M := mix64) es m (P_Mapping.SetPoint i k x y)); auto.
  Qed.
  Lemma defaults_keep : keeps (fun b => from_defaults L b).
  Proof.
    unfold from_defaults. cbv zeta. refine (keeps_bind _ _ (keeps_fold _ _ _) (keeps_bind _ _ (points_keep _ _ _) (keeps_bind _ _ (point_keeps _ _ _ _ _) (point_keeps _ _ _ _ _)))).
    intros id. refine (keeps_bind _ _ (keeps_fold _ _ _) (base_keeps _ _)). intros i. apply points_keep.
  Qed.
  Lemma defaults_poised : forall Q (b b' : brush), shape b -> poised Q b -> from_defaults L b = Ok b' -> poised Q b'.
  Proof.
    intros Q b b' Sh Po H. destruct (loads_defaults L (E := E) eq_refl b) as (b2 & E2 & _ & _ & Eq); [apply Sh|]. rewrite E2 in H. apply Ok_inj in H. subst b2.
    assert (b_states b' = b_states b /\ b_reset b' = b_reset b) as (S1 & R1) by (injection Eq; auto). unfold poised, st in *. rewrite S1, R1. exact Po.
  Qed.
  Lemma used_shape : forall ok b, used ok b -> shape b.
  Proof.
    intros ok b U. induction U as [n g jv jb lo hi b H X|b fuel w c b' w' U IH Ok_ H|b b' U IH H].
    - eapply reachable_shape. eapply r_new; eauto.
    - eapply call_shape; eauto.
    - eapply defaults_keep; eauto.
  Qed.
  Lemma ordinary_poised : forall b, used ordinary b -> poised calm b.
  Proof.
    intros b U. induction U as [n g jv jb lo hi b H X|b fuel w c b' w' U IH Ok_ H|b b' U IH H].
    - apply new_poised in H. destruct H as [H|(A & B)]; [left; exact H|right]. split; [apply soft_calm, zero_soft; exact A|exact B].
    - destruct c as [e| | | | | | |]; try (eapply call_poised; [|exact IH|exact H]; exact Ok_).
      cbn [run_call] in H. apply obind_ok in H. destruct H as ([((a, b1), w1)|] & E1 & H); [|discriminate H]. cbn in H. apply Ok_inj in H. assert (b' = b1) as -> by (injection H; auto).
      destruct Ok_ as (F & P). eapply soft_event; [exact F|exact P|apply (used_shape _ _ U)|exact IH|exact E1].
    - eapply defaults_poised; [apply (used_shape _ _ U)|exact IH|exact H].
  Qed.
  Lemma hovers_poised : forall b w b' w', (forall y, powf_ L f1 y = f1) -> hovers b w b' w' -> shape b -> poised zero b -> poised zero b' /\ unseen w w'.
  Proof.
    intros b w b' w' Pw H. induction H as [b w|fuel b w e a b1 w1 b' w' D (F & P) H _ IH|fuel b w c b1 w1 b' w' Nc Lc H _ IH|b w b1 b' w' H _ IH]; intros Sh Po.
    - split; [exact Po|]. exists []. split; [apply drew_none|constructor].
    - destruct (hover_event L zero zero fuel b w e a b1 w1 zero_settles zero_arrives (fun z h => h) F P Sh Po H) as (K & ds & Dr & U).
      destruct IH as (Po' & ds' & Dr' & U'); [exact (stroke_to_shape L _ _ _ _ _ _ _ Sh H)|destruct K as [(s & x & y & k & ->)|K]; [exact Po|exact K]|].
      split; [exact Po'|]. exists (ds ++ ds'). split; [eapply drew_app; eauto|]. apply Forall_app. split; [|exact U'].
      eapply Forall_impl; [|exact U]. intros d Hd. exact (underway_clear L (b_settings b) d Pw (dry_dried b D) Hd).
    - destruct (call_poised L zero fuel b w c b1 w1) as (Po1 & ->); [destruct c; try exact Lc; destruct (Nc e eq_refl)|exact Po|exact H|]. apply IH; [exact (call_shape L _ _ _ _ _ _ Sh H)|exact Po1].
    - apply IH; [exact (defaults_keep _ _ Sh H)|exact (defaults_poised _ _ _ Sh Po H)].
  Qed.

  (** *** C56, hovering is invisible: while the pen is up no dab of any opacity
      reaches the surface, and the pen stays up; on every surface, for every brush
      a program can have, with powf (1, y) = 1 as in the C standard.  A new brush
      has its pen up. *)
  Theorem C56_hover : forall ok (b : brush) w b' w', (forall y, powf_ L f1 y = f1) -> used ok b -> pen_up b -> hovers b w b' w' -> unseen w w' /\ pen_up b'.
  Proof.
    intros ok b w b' w' Pw U Up H. rewrite up_poised in *. destruct (hovers_poised b w b' w' Pw H (used_shape _ _ U) Up) as (A & B). auto.
  Qed.
  Theorem C56_new : forall n g jv jb lo hi (b : brush), brush_new L n g jv jb lo hi = Ok b -> pen_up b.
  Proof. intros n g jv jb lo hi b H. apply up_poised. eapply new_poised; exact H. Qed.

  (** *** Lifting the pen: whatever was painted before (by events with a pressure of
      at most one), after one event without pressure the pen is up, so that all
      hovering after it is invisible -- unless the event was held back (tracking
      noise makes the engine skip events), and then no state of the brush has
      changed at all. *)
  Theorem C56_lifting : forall fuel (b : brush) w e a b1 w1, (forall y, powf_ L f1 y = f1) -> used ordinary b -> pressure_at_most 0 e -> stroke_to L fuel b w e = Ok (Some (a, b1, w1)) ->
    (forall i, get_state b1 i = get_state b i) \/
    pen_up b1 /\ forall b2 w2, hovers b1 w1 b2 w2 -> unseen w1 w2.
  Proof.
    intros fuel b w e a b1 w1 Pw U (F & P) H. pose proof (used_shape _ _ U) as Sh.
    destruct (hover_event L calm zero fuel b w e a b1 w1) as ([(s & x & y & k & ->)|K] & _); auto.
    - intros fr q z Ff Hf Z Hq. apply calm_settles; auto. apply zero_soft. exact Z.
    - exact lifted_arrives.
    - apply ordinary_poised. exact U.
    - right. split; [apply up_poised; exact K|]. intros b2 w2 Hv. apply (hovers_poised b1 w1 b2 w2 Pw Hv); [exact (stroke_to_shape L _ _ _ _ _ _ _ Sh H)|exact K].
  Qed.

  (** *** Brushes that are dry: the opacity is a number, and opaque_multiply has
      nothing but a curve for pressure that begins at the origin and goes to the
      right ... *)
  Theorem C56_curve : forall ok (b : brush) m o g n x0 y0 x1 y1, used ok b ->
    get_base_value b (Z.of_nat SET_OPAQUE) = Ok o -> is_constant b (Z.of_nat SET_OPAQUE) = Ok true -> fin (o : f32) ->
    get_base_value b (Z.of_nat SET_PRESSURE_GAIN_LOG) = Ok g -> fin (expf_ L g : f32) ->
    get_base_value b (Z.of_nat SET_OPAQUE_MULTIPLY) = Ok m -> nothing m ->
    (forall input, 0 <= input < Z.of_nat INPUTS_COUNT -> get_mapping_n b (Z.of_nat SET_OPAQUE_MULTIPLY) input = Ok (if input =? Z.of_nat INP_PRESSURE then n else 0)) ->
    get_mapping_point b (Z.of_nat SET_OPAQUE_MULTIPLY) (Z.of_nat INP_PRESSURE) 0 = Ok (x0, y0) -> nothing x0 -> nothing y0 ->
    get_mapping_point b (Z.of_nat SET_OPAQUE_MULTIPLY) (Z.of_nat INP_PRESSURE) 1 = Ok (x1, y1) -> fin (x1 : f32) -> flt f0 x1 = true -> fin (y1 : f32) ->
    dry b.
  Proof.
    intros ok b m o g n x0 y0 x1 y1 U Bo Co Fo Bg Fg Bm Nm Pn G0 X0 Y0 G1 F1 P1 FY. pose proof (used_shape _ _ U) as Sh.
    assert (forall (id : nat) r mm, nth_error (b_settings b) id = Some mm -> get_base_value b (Z.of_nat id) = Ok r -> mp_base mm = r) as Gb.
    { intros id r mm N H. unfold get_base_value, setting_of in H. destruct (_ && _); [|discriminate H]. rewrite Nat2Z.id, N in H. cbn [obind] in H. apply Ok_inj in H. exact H. }
    assert (forall i : nat, (i < SETTINGS_COUNT)%nat -> exists mm, nth_error (b_settings b) i = Some mm /\ exists es, edited (K := sng mix64) INPUTS_COUNT es mm) as Ex.
    { intros i Hi. destruct Sh as (_ & (Ln & Fa) & _). destruct (nth_error (b_settings b) i) as [mm|] eqn:N; [|exfalso; apply nth_error_None in N; lia]. exists mm. split; [reflexivity|]. rewrite Forall_forall in Fa. apply Fa. eapply nth_error_In; exact N. }
    destruct (Ex SET_OPAQUE_MULTIPLY) as (mm & Nmm & es & Em); [vm_compute; lia|]. destruct (Ex SET_OPAQUE) as (mo & No & _); [vm_compute; lia|]. destruct (Ex SET_PRESSURE_GAIN_LOG) as (mg & Ng & _); [vm_compute; lia|]. clear Ex.
    split; [exists g; auto|]. assert (dried L (b_settings b)) as (_ & D); [|exact D].
    apply (inky_dried L (b_settings b) mm mo mg); try assumption.
    - split; [rewrite (Gb _ _ _ Nmm Bm); exact Nm|].
      assert (length (mp_points mm) = INPUTS_COUNT) as Lp by (apply edited_good in Em; apply Em).
      assert (forall i p, nth_error (mp_points mm) i = Some p -> cp_n p = if Z.of_nat i =? Z.of_nat INP_PRESSURE then n else 0) as Hn.
      { intros i p Np. assert (i < INPUTS_COUNT)%nat as Hi by (rewrite <- Lp; apply nth_error_Some; rewrite Np; discriminate). specialize (Pn (Z.of_nat i) ltac:(lia)).
        unfold get_mapping_n in Pn. change (Z.of_nat SET_OPAQUE_MULTIPLY <? 0) with false in Pn. rewrite Nat2Z.id, Nmm in Pn. unfold mapping_get_n, control_of in Pn. rewrite Lp in Pn.
        destruct (Z.leb_spec 0 (Z.of_nat i)); [|lia]. destruct (Z.ltb_spec (Z.of_nat i) (Z.of_nat INPUTS_COUNT)); [|lia]. cbn [andb] in Pn. rewrite Nat2Z.id, Np in Pn. cbn [obind] in Pn. apply Ok_inj in Pn. exact Pn. }
      destruct (mp_points mm) as [|p0 ps] eqn:Ep; [discriminate Lp|]. exists p0, ps. split; [reflexivity|]. split; [|].
      + apply Forall_forall. intros p Hp. apply In_nth_error in Hp. destruct Hp as (i & Hi). rewrite (Hn (S i) p Hi). destruct (Z.eqb_spec (Z.of_nat (S i)) (Z.of_nat INP_PRESSURE)) as [X|X]; [|reflexivity]. change (Z.of_nat INP_PRESSURE) with 0 in X. lia.
      + assert (forall k x y, get_mapping_point b (Z.of_nat SET_OPAQUE_MULTIPLY) (Z.of_nat INP_PRESSURE) k = Ok (x, y) -> k < cp_n p0 /\ cell (cp_x p0) k = Ok x /\ cell (cp_y p0) k = Ok y) as Pt.
        { intros k x y H. unfold get_mapping_point, setting_of in H. destruct (_ && _); [|discriminate H]. rewrite Nat2Z.id, Nmm in H. cbn [obind] in H. unfold mapping_get_point, control_of in H. rewrite Ep in H.
          destruct (_ && _); [|discriminate H]. change (nth_error (p0 :: ps) (Z.to_nat (Z.of_nat INP_PRESSURE))) with (Some p0) in H. cbn [obind] in H. destruct (negb _); [discriminate H|]. destruct (Z.ltb_spec k (cp_n p0)) as [Hk|Hk]; [|discriminate H]. cbn [negb] in H.
          apply obind_ok in H. destruct H as (x' & Hx & H). apply obind_ok in H. destruct H as (y' & Hy & H). apply Ok_inj in H. split; [exact Hk|]. assert (x' = x /\ y' = y) as (-> & ->) by (injection H; auto). auto. }
        destruct (Pt 0 x0 y0 G0) as (K0 & A0 & B0). destruct (Pt 1 x1 y1 G1) as (K1 & A1 & B1). split; [lia|]. exists x0, y0, x1, y1. repeat (split; [assumption|]). assumption.
    - unfold is_constant, setting_of in Co. destruct (_ && _); [|discriminate Co]. rewrite Nat2Z.id, No in Co. cbn [obind] in Co. apply Ok_inj in Co. apply Z.eqb_eq. exact Co.
    - rewrite (Gb _ _ _ No Bo). exact Fo.
    - rewrite (Gb _ _ _ Ng Bg). exact Fg.
  Qed.
  (** ... as in the brush mypaint_brush_from_defaults loads. *)
  Theorem C56_default : forall ok (b b' : brush), used ok b -> from_defaults L b = Ok b' -> (forall g, nothing g -> fin (expf_ L g : f32)) -> dry b'.
  Proof.
    intros ok b b' U H Fx. destruct (loads_defaults L (E := E) eq_refl b) as (b2 & E2 & (S1 & S2 & S3 & S4) & _); [apply (used_shape _ _ U)|]. rewrite E2 in H. apply Ok_inj in H. subst b2.
    destruct (S3 (Z.of_nat SET_OPAQUE_MULTIPLY) (Z.of_nat INP_PRESSURE) eq_refl) as (G0 & G1).
    eapply (C56_curve ok b' _ _ _ 2); [eapply u_defaults; eauto|apply S1; vm_compute; split; congruence|apply S4; vm_compute; [split; congruence|discriminate]|vm_compute; reflexivity|apply S1; vm_compute; split; congruence| |
      apply S1; vm_compute; split; congruence|vm_compute; reflexivity| |exact G0|vm_compute; reflexivity|vm_compute; reflexivity|exact G1|vm_compute; reflexivity|vm_compute; reflexivity|vm_compute; reflexivity].
    - apply Fx. vm_compute. reflexivity.
    - intros input Hi. rewrite S2 by (try exact Hi; vm_compute; split; congruence). unfold has_curve. rewrite Z.eqb_refl. reflexivity.
  Qed.

  (** A list of events, one after the other. *)
  Fixpoint events (fuel : nat) (b : brush) (w : world) (es : list (event mix64)) : outcome (option (brush * world)) :=
    match es with
    | [] => Ok (Some (b, w))
    | e :: es => let* r := stroke_to L fuel b w e in match r with None => Ok None | Some (_, b, w) => events fuel b w es end
    end.
  Lemma dry_same : forall b b' : brush, b_settings b' = b_settings b -> dry b -> dry b'.
  Proof. intros b b' Es D. unfold dry, get_base_value, setting_of in *. rewrite Es. exact D. Qed.
  Lemma events_hover : forall fuel es (b : brush) w b' w', shape b -> dry b -> Forall (pressure_at_most 0) es -> events fuel b w es = Ok (Some (b', w')) -> hovers b w b' w'.
  Proof.
    intros fuel. induction es as [|e es IH]; intros b w b' w' Sh D F H; cbn [events] in H.
    - apply Ok_inj in H. assert (b' = b /\ w' = w) as (-> & ->) by (injection H; auto). apply h_stop.
    - inversion F as [|? ? Fe Fs]; subst. apply obind_ok in H. destruct H as ([((a, b1), w1)|] & E1 & H); [|discriminate H].
      eapply h_event; [exact D|exact Fe|exact E1|]. apply IH; [exact (stroke_to_shape L _ _ _ _ _ _ _ Sh E1)| |exact Fs|exact H].
      eapply dry_same; [|exact D]. exact (stroke_settings L _ _ _ _ _ _ _ Sh E1).
  Qed.
  (** In one sentence: after a pen that was up, any number of events without pressure
      on a dry brush cannot be seen. *)
  Theorem C56_events : forall ok fuel es (b : brush) w b' w', (forall y, powf_ L f1 y = f1) -> used ok b -> pen_up b -> dry b -> Forall (pressure_at_most 0) es ->
    events fuel b w es = Ok (Some (b', w')) -> unseen w w' /\ pen_up b'.
  Proof. intros ok fuel es b w b' w' Pw U Up D F H. eapply C56_hover; eauto. eapply events_hover; eauto. apply (used_shape _ _ U). Qed.
End Hover.

(** *** On a tiled surface a dab without opacity changes no pixel, no queued
    operation and no rectangle, and is reported as not painting -- with every kind
    of symmetry. *)
Theorem C56_surface : forall G ts d ts' painted, nothing (Dab.d_opaque d) -> Dab.draw_dab G ts d = Ok (ts', painted) ->
  painted = false /\ Dab.ts_sf ts' = Dab.ts_sf ts /\ Dab.ts_boxes ts' = Dab.ts_boxes ts /\ Dab.ts_sym ts' = Dab.ts_sym ts.
Proof.
  intros G ts d ts' painted N H. unfold Dab.draw_dab in H. apply obind_ok in H. destruct H as ((ts1, m1) & E1 & H).
  unfold Dab.draw_dab_internal in E1. apply obind_ok in E1. destruct E1 as (o & Eo & E1).
  assert (o = None) as ->.
  { unfold Dab.prepare_op in Eo. cbv zeta in Eo. apply obind_ok in Eo. destruct Eo as (pn & _ & Eo).
    assert (feq (Dab.clamp01 (Dab.d_opaque d)) f0 = true) as Z by (destruct (zero_case _ N) as ([|] & ->); reflexivity).
    rewrite Z, Bool.orb_true_r in Eo. apply Ok_inj in Eo. auto. }
  apply Ok_inj in E1. assert (ts1 = ts /\ m1 = false) as (-> & ->) by (injection E1; auto). apply Ok_inj in H.
  assert (ts' = Dab.set_dirtied ts (Z.min (Dab.ts_num ts) 0) /\ painted = false) as (-> & ->) by (injection H; auto). repeat split.
Qed.

(** *** The painting program: hovering leaves the surface as it is.  [I]: any
    property of the pixels and queued operations that picking a colour from the
    surface (for smudging) does not disturb. *)
Theorem C56_canvas : forall G (L : mathlib mix64) rng next get (I : surf Dab.op (list Z) -> Prop),
  (forall ts x y r p c ts', get ts x y r p = Ok (c, ts') -> I (Dab.ts_sf ts) -> I (Dab.ts_sf ts')) ->
  forall ok (b : brush (easel G rng next get)) w b' w', (forall y, powf_ L f1 y = f1) -> used L ok b -> pen_up b -> hovers L b w b' w' ->
  I (Dab.ts_sf (w_surf w)) -> I (Dab.ts_sf (w_surf w')).
Proof.
  intros G L rng next get I HI ok b w b' w' Pw U Up H. destruct (C56_hover L ok b w b' w' Pw U Up H) as ((ds & D & N) & _).
  induction D as [s|s x y r paint c s1 ds s2 Ge _ IH|s d p s1 ds s2 Dr _ IH]; intros H0; [exact H0| |].
  - apply IH; [exact N|]. exact (HI _ _ _ _ _ _ _ Ge H0).
  - inversion N as [|? ? Nd Ns]; subst. apply IH; [exact Ns|]. cbn [easel e_draw] in Dr. apply obind_ok in Dr. destruct Dr as ((ts1, m) & Ed & Dr). apply Ok_inj in Dr.
    assert (s1 = ts1) as -> by (injection Dr; auto). destruct (C56_surface G s (handed_on d) ts1 m Nd Ed) as (_ & Q & _). rewrite Q. exact H0.
Qed.

(** *** Examples: the default brush over the recording surface of BrushToy.v.  Three
    hovering events make four dabs, all without opacity; the same three with
    pressure make dabs that can be seen. *)
Definition unpressed : list (event mix64) := [pen 0 0 0 10; pen 3 0 (-20) 10; pen 5 0 0 10].
Definition touching : list (event mix64) := [pen 0 0 50 10; pen 3 0 50 10; pen 5 0 50 10].
Definition loaded : outcome (brush toy) := let* b := toy_brush 0 in from_defaults toy_lib b.
Definition tried (es : list (event mix64)) (P : list (dab mix64) -> bool) : bool :=
  match loaded with
  | Ok b => match events toy_lib 20 b toy_world es with Ok (Some (_, w)) => P (w_surf w) | _ => false end
  | _ => false
  end.
Lemma tried_ok : forall es P, tried es P = true -> exists b0 b b' w', toy_brush 0 = Ok b0 /\ from_defaults toy_lib b0 = Ok b /\ events toy_lib 20 b toy_world es = Ok (Some (b', w')) /\ P (w_surf w') = true.
Proof.
  intros es P. unfold tried, loaded. destruct (toy_brush 0) as [b0| |]; [|intros T; discriminate T|intros T; discriminate T]. cbn [obind].
  destruct (from_defaults toy_lib b0) as [b| |] eqn:Ed; [|intros T; discriminate T|intros T; discriminate T].
  destruct (events toy_lib 20 b toy_world es) as [[[b' w']|]| |] eqn:Ee; intros T; try discriminate T. exists b0, b, b', w'. split; [reflexivity|]. split; [exact Ed|]. split; [exact Ee|exact T].
Qed.
Lemma unpressed_dabs : tried unpressed (fun ds => (2 <=? Z.of_nat (length ds)) && forallb (fun d : dab mix64 => feq (dab_opaque d) f0) ds) = true.
Proof. vm_compute. reflexivity. Qed.
Lemma touching_dabs : tried touching (fun ds => (2 <=? Z.of_nat (length ds)) && existsb (fun d : dab mix64 => flt (flit 1 4) (dab_opaque d)) ds) = true.
Proof. vm_compute. reflexivity. Qed.
Example hovering_happens : exists (b0 b b' : brush toy) w', toy_brush 0 = Ok b0 /\ from_defaults toy_lib b0 = Ok b /\ events toy_lib 20 b toy_world unpressed = Ok (Some (b', w')) /\
  (forall y, powf_ toy_lib f1 y = f1) /\ used toy_lib (fun _ => True) b /\ pen_up b /\ dry toy_lib b /\ Forall (pressure_at_most 0) unpressed /\
  2 <= Z.of_nat (length (w_surf w')).
Proof.
  destruct (tried_ok _ _ unpressed_dabs) as (b0 & b & b' & w' & E0 & Ed & Ee & T). exists b0, b, b', w'. apply andb_prop in T. destruct T as (T & _).
  assert (used toy_lib (fun _ => True) b0) as U0 by (apply (u_new (E := toy) toy_lib _ 0 tt [] [] 0 0); [exact E0|intros X; discriminate X]).
  split; [exact E0|]. split; [exact Ed|]. split; [exact Ee|]. split; [reflexivity|]. split; [eapply u_defaults; eauto|]. split; [|split; [|split]].
  - apply up_poised. eapply defaults_poised; [exact (used_shape _ _ _ U0)|apply (new_poised (E := toy) toy_lib 0 tt [] [] 0 0); exact E0|exact Ed].
  - eapply C56_default; [exact U0|exact Ed|]. intros g _. reflexivity.
  - assert (forall x y p ms, fconst_test (-1) 0 (flit p 100) = true -> pressure_at_most 0 (pen x y p ms)) as K.
    { intros x y p ms Q. apply EaselDefaults.fconst in Q; [|lia|lia]. destruct Q as (F & _ & P). split; [exact F|exact P]. }
    repeat (apply Forall_cons; [apply K; vm_compute; reflexivity|]). apply Forall_nil.
  - apply Z.leb_le. exact T.
Qed.
(** lifting: the pen paints with pressure, then one event without *)
Definition tried_then (es : list (event mix64)) (e : event mix64) (P : brush toy -> brush toy -> bool) : bool :=
  match loaded with
  | Ok b => match events toy_lib 20 b toy_world es with
            | Ok (Some (b1, w1)) => match stroke_to toy_lib 20 b1 w1 e with Ok (Some (_, b2, _)) => P b1 b2 | _ => false end
            | _ => false end
  | _ => false end.
Lemma used_events : forall es (b : brush toy) w b' w', Forall (pressure_at_most 1) es -> used toy_lib ordinary b -> events toy_lib 20 b w es = Ok (Some (b', w')) -> used toy_lib ordinary b'.
Proof.
  induction es as [|e es IH]; intros b w b' w' F U H; cbn [events] in H.
  - apply Ok_inj in H. assert (b' = b) as -> by (injection H; auto). exact U.
  - inversion F as [|? ? Fe Fs]; subst. apply obind_ok in H. destruct H as ([((a, b1), w1)|] & E1 & H); [|discriminate H].
    eapply IH; [exact Fs| |exact H]. eapply (u_call toy_lib ordinary b 20 w (CStroke e) b1 w1); [exact U|exact Fe|]. cbn [run_call]. rewrite E1. reflexivity.
Qed.
Lemma tried_then_ok : forall es e P, Forall (pressure_at_most 1) es -> tried_then es e P = true ->
  exists (b : brush toy) w a b1 w1, used toy_lib ordinary b /\ stroke_to toy_lib 20 b w e = Ok (Some (a, b1, w1)) /\ P b b1 = true.
Proof.
  intros es e P F. unfold tried_then, loaded. destruct (toy_brush 0) as [b0| |] eqn:E0; [|intros T; discriminate T|intros T; discriminate T]. cbn [obind].
  destruct (from_defaults toy_lib b0) as [b| |] eqn:Ed; [|intros T; discriminate T|intros T; discriminate T].
  destruct (events toy_lib 20 b toy_world es) as [[[b1 w1]|]| |] eqn:Ee; [|intros T; discriminate T|intros T; discriminate T|intros T; discriminate T].
  destruct (stroke_to toy_lib 20 b1 w1 e) as [[[[a b2] w2]|]| |] eqn:Es; [|intros T; discriminate T|intros T; discriminate T|intros T; discriminate T].
  intros T. exists b1, w1, a, b2, w2. split; [|split; [exact Es|exact T]].
  eapply used_events; [exact F|eapply u_defaults; [apply (u_new (E := toy) toy_lib _ 0 tt [] [] 0 0); [exact E0|intros X; discriminate X]|exact Ed]|exact Ee].
Qed.
Lemma still_moving : tried_then touching (pen 9 0 0 10) (fun b1 b2 => flt f0 (st b1 STATE_PRESSURE) && feq (st b2 STATE_PRESSURE) f0) = true.
Proof. vm_compute. reflexivity. Qed.
Example lifting_happens : exists (b : brush toy) w a b1 w1, used toy_lib ordinary b /\ pressure_at_most 0 (pen 9 0 0 10) /\ stroke_to toy_lib 20 b w (pen 9 0 0 10) = Ok (Some (a, b1, w1)) /\
  flt f0 (st b STATE_PRESSURE) = true /\ feq (st b1 STATE_PRESSURE) f0 = true.
Proof.
  assert (forall x y p ms n, fconst_test (-1) n (flit p 100) = true -> -1 <= n <= 1 -> pressure_at_most n (pen x y p ms)) as K.
  { intros x y p ms n Q Hn. apply EaselDefaults.fconst in Q; [|lia|lia]. destruct Q as (F & _ & P). split; [exact F|exact P]. }
  assert (Forall (pressure_at_most 1) touching) as F. { repeat (apply Forall_cons; [apply K; [vm_compute; reflexivity|lia]|]). apply Forall_nil. }
  destruct (tried_then_ok _ _ _ F still_moving) as (b & w & a & b1 & w1 & U & Es & T). apply andb_prop in T. destruct T as (T1 & T2).
  exists b, w, a, b1, w1. split; [exact U|]. split; [apply K; [vm_compute; reflexivity|lia]|]. split; [exact Es|]. split; [exact T1|exact T2].
Qed.

Print Assumptions C56_hover.
Print Assumptions C56_new.
Print Assumptions C56_lifting.
Print Assumptions C56_curve.
Print Assumptions C56_default.
Print Assumptions C56_events.
Print Assumptions C56_surface.
Print Assumptions C56_canvas.
