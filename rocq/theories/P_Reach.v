(** Property C49, with symmetry: a session completes if the dabs it asks for are
    in range; their copies then are, whatever the symmetry. *)
From Verif Require Import Base F32 F32Proofs Queue QueueProofs Blend Mask MaskProofs BlendProofs OpaProofs RrProofs
  MaskFloatProofs FarProofs Rect Arith Symmetry Plumb PlumbProofs P_Plumb KeepProofs Dab DabProofs HistoryProofs SurfProofs
  SymmetryProofs PassProofs Paint PaintProofs CompleteProofs.
From Coq Require Import Reals Lra ZifyBool.
From Flocq Require Import Core.Core IEEE754.BinarySingleNaN.
From Verif Require P_SymSafe P_Endless BrushProofs P_Easel.
From Verif Require Import P_Mask P_Blend P_Rect RoiProofs DirtyProofs P_Dab P_Surface P_Paint SessionProofs P_Complete EaselNum SymReach SymCopies.
Local Open Scope Z_scope.

(** [calm] (SymCopies.v): a symmetry has its centre within 65536, an angle within a
    million degrees and at most four million lines.
    [inner]: the dab is within 440001, with an angle within a million degrees.
    [turns_ok G] (SymReach.v): sin and cos of the symmetry lie on the unit circle up
    to 2^-16. *)
Section Reach.
  Variables (trig : trig_oracle) (G : trigops num32).
  Hypotheses (T : trig_ok trig) (K : turns_ok G).
  Notation placed := (placed trig paint_mix G).

  Lemma placed_workable : forall all evs ts d, (all \/ ~ all) -> ainv G all ts -> tame ts -> Forall calm evs ->
    (all -> Forall boxes_allocated evs) -> (~ all -> Forall no_snowflake evs) -> (forall d, In (SDab d) evs -> workable trig d /\ inner d) ->
    In d (placed ts evs) -> workable trig d.
  Proof.
    intros all. induction evs as [|e evs IH]; intros ts d Dec Ai Tm Cm Fa Fn Wk I; [destruct I|]. cbn [HistoryProofs.placed] in I. inversion Cm; subst. apply in_app_or in I. destruct I as [I|I].
    - destruct e; try destruct I.
      + subst. apply Wk. left. reflexivity.
      + destruct (Wk d0 (or_introl eq_refl)) as (W1 & W2). exact (copies_workable trig G T K all ts d0 d Ai Tm W2 W1 H).
    - destruct (Dab.sstep _ _ _ _ _) as [(ts1, r)| |] eqn:E; [|destruct I|destruct I]. apply (IH ts1); auto.
      + refine (sstep_ainv trig paint_mix G all ts e ts1 r Dec Ai (calm_few e H1) _ _ E); intros X; [specialize (Fa X); inversion Fa|specialize (Fn X); inversion Fn]; assumption.
      + exact (step_tame trig G all ts e ts1 r Ai Tm H1 E).
      + intros X. specialize (Fa X). inversion Fa; assumption.
      + intros X. specialize (Fn X). inversion Fn; assumption.
      + intros d' Id. apply Wk. right. exact Id.
  Qed.

  (** Every session whose dabs and symmetries are in range completes.  Missing
      (hence partial): as in C49_session_completes_partial; and dabs between 440001
      and 2^20 under a symmetry. *)
  Theorem C49_with_symmetry_partial : forall ok junk pix0 ts0 evs,
    tiled_surface_init G ok junk pix0 = Ok ts0 -> canvas pix0 ->
    (forall X Y, valid (pixel_of pix0 X Y)) ->
    Forall calm evs -> (forall d, In (SDab d) evs -> workable trig d /\ inner d) ->
    Forall boxes_allocated evs \/ Forall no_snowflake evs ->
    arrays_ok false evs -> roomy trig G ts0 evs ->
    exists ts rs, srun trig paint_mix G ts0 evs = Ok (ts, rs).
  Proof.
    intros ok junk pix0 ts0 evs I0 C0 V0 Cm Wk Al Ar Rm.
    assert (exists all : Prop, (all \/ ~ all) /\ (all -> Forall boxes_allocated evs) /\ (~ all -> Forall no_snowflake evs)) as (all & Dec & Fa & Fn).
    { destruct Al as [X|X]; [exists True|exists False]; tauto. }
    apply (C49_session_completes_partial trig G ok junk pix0 ts0 evs); auto.
    - intros d Id. apply (placed_workable all evs ts0 d); auto; [exact (init_ainv G all ok junk pix0 ts0 I0)|exact (init_tame G ok junk pix0 ts0 I0)].
    - eapply Forall_impl; [|exact Cm]. exact calm_few.
  Qed.
End Reach.

(** Any pigment dabs of whole coordinates and radii under a snowflake of ten lines:
    each is drawn twenty times. *)
Example C49_symmetry_case : forall (dabs : list (Z * Z * Z)) ok1 ok2 junk can ts0,
  (forall x y r, In (x, y, r) dabs -> Z.abs x <= 440001 /\ Z.abs y <= 440001 /\ 1 <= r <= 1010) ->
  tiled_surface_init no_turn ok1 junk blank = Ok ts0 ->
  exists ts rs, srun flat paint_mix no_turn ts0
    (SSym true (f_of_Z 500) (f_of_Z (-20)) (f_of_Z 15) Snowflake 10 :: SBegin ok2 true ::
     map (fun '(x, y, r) => SDab (pigment_dab (f_of_Z x) (f_of_Z y) (f_of_Z r))) dabs ++ [SEnd can (Some ([rect0], 1))]) = Ok (ts, rs).
Proof.
  intros dabs ok1 ok2 junk can ts0 A I0.
  set (mk := fun '(x, y, r) => SDab (pigment_dab (f_of_Z x) (f_of_Z y) (f_of_Z r))).
  assert (forall e, In e (map mk dabs) -> exists x y r, e = SDab (pigment_dab (f_of_Z x) (f_of_Z y) (f_of_Z r)) /\ In (x, y, r) dabs) as M.
  { intros e I. apply in_map_iff in I. destruct I as (((x, y), r) & <- & I). exists x, y, r. auto. }
  assert (forall P : sev -> Prop, (forall d, P (SDab d)) -> P (SEnd can (Some ([rect0], 1))) -> Forall P (map mk dabs ++ [SEnd can (Some ([rect0], 1))])) as Fo.
  { intros P Pd Pe. apply Forall_forall. intros e I. apply in_app_or in I. destruct I as [I|[<-|[]]]; [|exact Pe]. destruct (M e I) as (x & y & r & -> & _). apply Pd. }
  apply (C49_with_symmetry_partial flat no_turn P_Easel.flat_trig P_Easel.flat_turns ok1 junk blank); auto.
  - exact blank_canvas.
  - intros X Y. rewrite blank_pixels. unfold valid, full; cbn. lia.
  - constructor.
    + split; [eapply zf_weak; [apply zf_Z; lia|lia|lia]|]. split; [eapply zf_weak; [apply zf_Z; lia|lia|lia]|]. split; [eapply zf_weak; [apply zf_Z; lia|lia|lia]|lia].
    + constructor; [exact Logic.I|]. apply Fo; [intros d|]; exact Logic.I.
  - intros d [I|[I|I]]; [discriminate I|discriminate I|]. apply in_app_or in I. destruct I as [I|[I|[]]]; [|discriminate I].
    destruct (M _ I) as (x & y & r & E & Id). injection E as ->. destruct (A x y r Id) as (Hx & Hy & Hr). split; [apply pigment_workable; lia|].
    split; [|split]; cbn [pigment_dab d_x d_y d_angle].
    + eapply zf_weak; [apply zf_Z; lia|lia|lia]. + eapply zf_weak; [apply zf_Z; lia|lia|lia].
    + change f0 with (f_of_Z 0). eapply zf_weak; [apply zf_Z; lia|lia|lia].
  - left. constructor; [exact Logic.I|]. constructor; [reflexivity|]. apply Fo; [intros d|]; exact Logic.I.
  - cbn [arrays_ok]. split; [exact Logic.I|]. split; [exact Logic.I|]. cbn [orb is_begin]. clear - M. induction (map mk dabs) as [|e l IH]; cbn [app arrays_ok].
    + split; [split; [reflexivity|cbn; lia]|exact Logic.I].
    + destruct (M e (or_introl eq_refl)) as (x & y & r & -> & _). split; [exact Logic.I|]. cbn [is_begin orb]. apply IH. intros e I. apply M. right. auto.
  - intros a b c ts rs Eq _ _. left. intros e Ie.
    assert (In e (SSym true (f_of_Z 500) (f_of_Z (-20)) (f_of_Z 15) Snowflake 10 :: SBegin ok2 true :: map mk dabs ++ [SEnd can (Some ([rect0], 1))])) as I by (rewrite Eq; apply in_or_app; right; apply in_or_app; left; exact Ie).
    destruct I as [<-|[<-|I]]; [reflexivity|reflexivity|]. apply in_app_or in I. destruct I as [I|[<-|[]]]; [|reflexivity]. destruct (M e I) as (x & y & r & -> & _). reflexivity.
Qed.

Print Assumptions C49_with_symmetry_partial.
