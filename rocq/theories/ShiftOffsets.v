(** The directional offset of a dab depends on the brush through ten of its
    settings' values and four of its states only. *)
From Verif Require Import Base F32 Arith Color Mapping Settings Spectral Brush BrushProofs.

Section Offsets.
  Context {M : mixed} (L : mathlib M) {E : env M}.
  Definition offset_settings : list nat :=
    [SET_OFFSET_MULTIPLIER; SET_OFFSET_ANGLE_ADJ; SET_OFFSET_X; SET_OFFSET_Y; SET_OFFSET_ANGLE; SET_OFFSET_ANGLE_ASC; SET_OFFSET_ANGLE_VIEW; SET_OFFSET_ANGLE_2; SET_OFFSET_ANGLE_2_ASC; SET_OFFSET_ANGLE_2_VIEW].
  Lemma offsets_form : exists F, forall (b : brush E) r f, directional_offsets L b r f =
    F (val b SET_OFFSET_MULTIPLIER) (val b SET_OFFSET_ANGLE_ADJ) (val b SET_OFFSET_X) (val b SET_OFFSET_Y) (val b SET_OFFSET_ANGLE) (val b SET_OFFSET_ANGLE_ASC) (val b SET_OFFSET_ANGLE_VIEW)
      (val b SET_OFFSET_ANGLE_2) (val b SET_OFFSET_ANGLE_2_ASC) (val b SET_OFFSET_ANGLE_2_VIEW)
      (st b STATE_DIRECTION_ANGLE_DY) (st b STATE_DIRECTION_ANGLE_DX) (st b STATE_VIEWROTATION) (st b STATE_ASCENSION) r f.
  Proof.
    eexists. intros b r f. unfold directional_offsets.
    match goal with |- ?t = _ =>
      let p := eval pattern (val b SET_OFFSET_MULTIPLIER), (val b SET_OFFSET_ANGLE_ADJ), (val b SET_OFFSET_X), (val b SET_OFFSET_Y), (val b SET_OFFSET_ANGLE), (val b SET_OFFSET_ANGLE_ASC), (val b SET_OFFSET_ANGLE_VIEW),
        (val b SET_OFFSET_ANGLE_2), (val b SET_OFFSET_ANGLE_2_ASC), (val b SET_OFFSET_ANGLE_2_VIEW),
        (st b STATE_DIRECTION_ANGLE_DY), (st b STATE_DIRECTION_ANGLE_DX), (st b STATE_VIEWROTATION), (st b STATE_ASCENSION), r, f in t in exact (eq_refl p) end.
  Qed.
  Lemma offsets_of : forall (b1 b2 : brush E) r f, (forall i, In i offset_settings -> val b2 i = val b1 i) ->
    st b2 STATE_DIRECTION_ANGLE_DY = st b1 STATE_DIRECTION_ANGLE_DY -> st b2 STATE_DIRECTION_ANGLE_DX = st b1 STATE_DIRECTION_ANGLE_DX ->
    st b2 STATE_VIEWROTATION = st b1 STATE_VIEWROTATION -> st b2 STATE_ASCENSION = st b1 STATE_ASCENSION ->
    directional_offsets L b2 r f = directional_offsets L b1 r f.
  Proof.
    intros b1 b2 r f V E1 E2 E3 E4. destruct offsets_form as (F & H). rewrite !H, E1, E2, E3, E4. rewrite !V by (cbn; auto 20). reflexivity.
  Qed.
  Lemma offsets_same : forall (b1 b2 : brush E) r f, (forall i, val b2 i = val b1 i) ->
    st b2 STATE_DIRECTION_ANGLE_DY = st b1 STATE_DIRECTION_ANGLE_DY -> st b2 STATE_DIRECTION_ANGLE_DX = st b1 STATE_DIRECTION_ANGLE_DX ->
    st b2 STATE_VIEWROTATION = st b1 STATE_VIEWROTATION -> st b2 STATE_ASCENSION = st b1 STATE_ASCENSION ->
    directional_offsets L b2 r f = directional_offsets L b1 r f.
  Proof. intros b1 b2 r f V. apply offsets_of. intros i _. apply V. Qed.
End Offsets.
