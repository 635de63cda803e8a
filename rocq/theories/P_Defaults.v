(** Property C35: loading the defaults. *)
From Verif Require Import Base F32 F32Proofs Arith Color Mapping P_Mapping Settings Spectral Brush BrushProofs BrushInst BrushToy BrushSettings.
From Coq Require Import Reals Lra.
Local Open Scope Z_scope.

(** The documented default of setting [id]: a fraction from brushsettings.json. *)
Definition documented (id : Z) : Z * Z :=
  match nth_error settings_info_array (Z.to_nat id) with Some i => st_def i | None => (0, 1) end.

Section Defaults.
  Context {M : mixed} (L : mathlib M) {E : env M}.
  Notation K := (sng M).
  Notation S := (car (sng M)).
  Notation brush := (brush E).

  (** the number n/d as a float *)
  Definition number (q : Z * Z) : S := nar (dec (fst q) (snd q)).

  (** Opaque_multiply is the only setting with a curve: pressure maps to itself. *)
  Definition has_curve (id input : Z) : bool :=
    (id =? Z.of_nat SET_OPAQUE_MULTIPLY) && (input =? Z.of_nat INP_PRESSURE).

  (** What a user sees: the base values, the curves, the settings without curve. *)
  Definition shows_defaults (b : brush) : Prop :=
    (forall id, 0 <= id < Z.of_nat SETTINGS_COUNT -> get_base_value b id = Ok (number (documented id))) /\
    (forall id input, 0 <= id < Z.of_nat SETTINGS_COUNT -> 0 <= input < Z.of_nat INPUTS_COUNT ->
       get_mapping_n b id input = Ok (if has_curve id input then 2 else 0)) /\
    (forall id input, has_curve id input = true ->
       get_mapping_point b id input 0 = Ok (nofZ 0, nofZ 0) /\ get_mapping_point b id input 1 = Ok (nofZ 1, nofZ 1)) /\
    (forall id, 0 <= id < Z.of_nat SETTINGS_COUNT -> id <> Z.of_nat SET_OPAQUE_MULTIPLY -> is_constant b id = Ok true).

  (** What the brush computes from its inputs (of which there are 18). *)
  Definition computes_defaults (b : brush) : Prop :=
    forall data, length data = INPUTS_COUNT -> exists vs, calculate_all (b_settings b) data = Ok vs /\
      forall id, 0 <= id < Z.of_nat SETTINGS_COUNT ->
        nth (Z.to_nat id) vs (nofZ 0) =
        if id =? Z.of_nat SET_OPAQUE_MULTIPLY
        then nadd (number (documented id)) (line (nofZ 0 : S, nofZ 0 : S) (nofZ 1, nofZ 1) (nth INP_PRESSURE data (nofZ 0)))
        else number (documented id).

  Lemma documented_default : forall id, 0 <= id < Z.of_nat SETTINGS_COUNT -> default_of (M := M) id = number (documented id).
  Proof.
    intros id H. unfold default_of, documented, number. destruct (nth_error settings_info_array (Z.to_nat id)) as [i|] eqn:N.
    - destruct (st_def i). reflexivity.
    - exfalso. apply nth_error_None in N. change (length settings_info_array) with SETTINGS_COUNT in N. lia.
  Qed.

  Definition curve_edits (i : nat) : list (edit K) :=
    if Nat.eqb i (Z.to_nat (OM)) then [SetN PR 2; SetPoint PR 0 (nofZ 0) (nofZ 0); SetPoint PR 1 (nofZ 1) (nofZ 1)] else [].
  Definition edits_of (h : nat -> list (edit K)) (i : nat) : list (edit K) := h i ++ cleared (M := M) (Z.of_nat i) ++ curve_edits i.

  Lemma edits_n : forall h i input, 0 <= input < Z.of_nat INPUTS_COUNT ->
    last_n (edits_of h i) input = if has_curve (Z.of_nat i) input then 2 else 0.
  Proof.
    intros h i input H. unfold edits_of. rewrite app_assoc.
    assert (last_n (h i ++ cleared (M := M) (Z.of_nat i)) input = 0) as A.
    { unfold cleared. rewrite app_assoc, last_n_snoc. apply last_n_const. apply in_zrange. lia. }
    unfold curve_edits, has_curve. fold OM PR. destruct (Nat.eqb_spec i (Z.to_nat OM)) as [->|Ne].
    - rewrite Z2Nat.id by (vm_compute; discriminate). rewrite Z.eqb_refl. cbn [andb]. destruct (Z.eqb_spec input PR) as [->|Np].
      + apply last_n_set. intros j n' [X|[X|[]]]; discriminate X.
      + rewrite last_n_app; auto. intros j n' [X|[X|[X|[]]]]; congruence.
    - destruct (Z.eqb_spec (Z.of_nat i) OM) as [Eo|]; [exfalso; apply Ne; rewrite <- Eo, Nat2Z.id; auto|]. cbn [andb]. rewrite app_nil_r. exact A.
  Qed.
  Lemma edits_base : forall h i, last_base (edits_of h i) = default_of (M := M) (Z.of_nat i).
  Proof.
    intros h i. unfold edits_of, cleared, curve_edits. destruct (Nat.eqb i (Z.to_nat OM)).
    - unfold last_base. rewrite !fold_left_app. reflexivity.
    - rewrite app_nil_r, app_assoc, last_base_snoc. reflexivity.
  Qed.
  Lemma edits_points : forall h i, i = Z.to_nat OM ->
    last_point (edits_of h i) PR 0 = Some (nofZ 0, nofZ 0) /\ last_point (edits_of h i) PR 1 = Some (nofZ 1, nofZ 1).
  Proof.
    intros h i ->. unfold edits_of, curve_edits. rewrite Nat.eqb_refl. rewrite app_assoc.
    unfold last_point. rewrite !fold_left_app. cbn [fold_left]. rewrite !Z.eqb_refl. cbn [andb Z.eqb]. auto.
  Qed.

  Lemma segment_unique : forall (pts : list (S * S)) x k k', segment_of (K := K) pts x k -> segment_of (K := K) pts x k' -> k = k'.
  Proof.
    assert (forall (pts : list (S * S)) x k k', segment_of (K := K) pts x k -> segment_of (K := K) pts x k' -> (k < k')%nat -> False) as A.
    { intros pts x k k' (A1 & A2 & A3) (B1 & B2 & B3) Lt. specialize (B2 (k + 1)%nat). destruct A3 as [A3|A3]; [lia|]. rewrite A3 in B2. 
      assert (false = true) by (apply B2; lia). discriminate. }
    intros pts x k k' H1 H2. destruct (lt_eq_lt_dec k k') as [[Lt|Eq]|Gt]; auto; exfalso; eauto.
  Qed.

  (** the curves of setting [i] after loading the defaults *)
  Definition curves_of (i : nat) : list (list (S * S)) :=
    map (fun j => if has_curve (Z.of_nat i) (Z.of_nat j) then [(nofZ 0, nofZ 0); (nofZ 1, nofZ 1)] else []) (seq 0 INPUTS_COUNT).
  Lemma curves_nth : forall i j, (j < INPUTS_COUNT)%nat ->
    nth j (curves_of i) [] = if has_curve (Z.of_nat i) (Z.of_nat j) then [(nofZ 0, nofZ 0); (nofZ 1, nofZ 1)] else [].
  Proof.
    intros i j H. apply nth_error_nth. unfold curves_of. rewrite nth_error_map, nth_error_seq'.
    destruct (Nat.ltb_spec j INPUTS_COUNT); [reflexivity|lia].
  Qed.
  Lemma edits_entered : forall h i, (i < SETTINGS_COUNT)%nat -> entered INPUTS_COUNT (edits_of h i) (curves_of i).
  Proof.
    intros h i Hi. split; [unfold curves_of; rewrite map_length, seq_length; auto|]. intros j Hj. rewrite edits_n by lia. rewrite curves_nth by auto.
    destruct (has_curve (Z.of_nat i) (Z.of_nat j)) eqn:C; [|split; [reflexivity|intros k Hk; cbn in Hk; lia]].
    split; [reflexivity|]. unfold has_curve in C. apply andb_prop in C. destruct C as [C1 C2]. apply Z.eqb_eq in C1. apply Z.eqb_eq in C2.
    fold OM in C1. fold PR in C2. rewrite C2. destruct (edits_points h i) as (P0 & P1). { rewrite <- C1, Nat2Z.id. auto. }
    intros [|[|k]] Hk; [exact P0|exact P1|cbn in Hk; lia].
  Qed.

  Lemma total_none : forall (cs : list (list (S * S))) data r r', Forall (fun c => c = []) cs -> total (K := K) cs data r r' -> r' = r.
  Proof.
    intros cs data r r' F T. induction T as [r|cs x xs r r' T IH|c cs x xs y r r' (k & (Hk & _) & _) T IH]; auto.
    - apply IH. inversion F; auto.
    - inversion F; subst. cbn in Hk. lia.
  Qed.
  Lemma calculate_nth : forall ms data vs i m, calculate_all (M := M) ms data = Ok vs -> nth_error ms i = Some m ->
    mapping_calculate m data = Ok (nth i vs (nofZ 0)).
  Proof.
    induction ms as [|m0 ms IH]; intros data vs i m H N; [destruct i; discriminate|]. cbn [calculate_all] in H.
    apply obind_ok in H. destruct H as (v & Ev & H). apply obind_ok in H. destruct H as (vs' & Evs & H). injection H as <-.
    destruct i as [|i]; cbn in N |- *; [injection N as ->; auto|eauto].
  Qed.
  Lemma calculate_ok : forall ms data, (forall i m, nth_error ms i = Some m -> exists r, mapping_calculate m data = Ok r) ->
    exists vs, calculate_all (M := M) ms data = Ok vs.
  Proof.
    induction ms as [|m0 ms IH]; intros data H; [exists []; reflexivity|]. cbn [calculate_all].
    destruct (H 0%nat m0 eq_refl) as (r & ->). cbn [obind]. destruct (IH data) as (vs & ->). { intros i m N. apply (H (Datatypes.S i) m N). }
    cbn [obind]. eauto.
  Qed.

  Lemma loads_defaults : nle (nofZ 0 : S) (nofZ 1) = true -> forall b : brush, settings_ok (b_settings b) ->
    exists b', from_defaults L b = Ok b' /\ shows_defaults b' /\ computes_defaults b' /\
      (b_states b', b_buckets b', b_rng b', b_painting b', b_idling b', b_reset b') =
      (b_states b, b_buckets b, b_rng b, b_painting b, b_idling b, b_reset b).
  Proof.
    intros Hle b R. apply settings_history in R. destruct R as (h & H).
    destruct (defaults_history L Hle b h H) as (b' & E1 & F1 & H1). exists b'. split; [exact E1|].
    assert (history b' (edits_of h)) as H2 by exact H1. clear H1 H.
    split; [|split; [|unfold same_but_settings in F1; rewrite F1; reflexivity]].
    - split; [|split; [|split]].
      + intros id Hi. rewrite (get_base_ok b' _ id H2 Hi). rewrite edits_base, Z2Nat.id by lia. rewrite documented_default by auto. reflexivity.
      + intros id input Hi Hj. rewrite (get_n_ok b' _ id input H2 Hi Hj). rewrite edits_n, Z2Nat.id by lia. reflexivity.
      + intros id input C. unfold has_curve in C. apply andb_prop in C. destruct C as [C1 C2]. apply Z.eqb_eq in C1. apply Z.eqb_eq in C2. subst id input.
        destruct (edits_points h (Z.to_nat OM) eq_refl) as (P0 & P1).
        assert (last_n (edits_of h (Z.to_nat OM)) PR = 2) as N2 by (rewrite edits_n by (vm_compute; split; congruence); reflexivity).
        split; (eapply get_point_ok; [exact H2|vm_compute; split; congruence|vm_compute; split; congruence|fold OM PR; rewrite N2; lia|assumption]).
      + intros id Hi Ne. apply (constant_ok b' _ id H2 Hi). intros input Hj. rewrite edits_n, Z2Nat.id by lia. unfold has_curve.
        destruct (Z.eqb_spec id (Z.of_nat SET_OPAQUE_MULTIPLY)); [contradiction|]. reflexivity.
    - intros data Ld. destruct H2 as [Ln H2].
      assert (forall i m, nth_error (b_settings b') i = Some m -> exists r, mapping_calculate m data = Ok r /\ total (K := K) (curves_of i) data (default_of (M := M) (Z.of_nat i)) r) as A.
      { intros i m N. assert (i < SETTINGS_COUNT)%nat as Hi by (rewrite <- Ln; apply nth_error_Some; rewrite N; discriminate).
        destruct (H2 i Hi) as (m' & N' & Em). rewrite N in N'. injection N' as <-.
        destruct (C21_evaluation K _ _ m _ data Em (edits_entered h i Hi) Ld) as (r & Er & T). rewrite edits_base in T. eauto. }
      destruct (calculate_ok (b_settings b') data) as (vs & Ev). { intros i m N. destruct (A i m N) as (r & Er & _). eauto. }
      exists vs. split; [exact Ev|]. intros id Hi. destruct (H2 (Z.to_nat id)) as (m & N & _); [lia|].
      pose proof (calculate_nth _ _ _ _ _ Ev N) as Er. destruct (A _ _ N) as (r & Er' & T). rewrite Er in Er'. injection Er' as <-.
      revert T. rewrite Z2Nat.id by lia. rewrite documented_default by auto. generalize (nth (Z.to_nat id) vs (nofZ 0)). intros r T.
      destruct (Z.eqb_spec id (Z.of_nat SET_OPAQUE_MULTIPLY)) as [->|Ne].
      + destruct data as [|x data]; [discriminate|]. cbn [nth INP_PRESSURE].
        change (curves_of (Z.to_nat (Z.of_nat SET_OPAQUE_MULTIPLY))) with ([(nofZ 0 : S, nofZ 0 : S); (nofZ 1, nofZ 1)] :: repeat [] 17) in T.
        inversion T as [| |c cs x' xs y r0 r1 (k & Hk & ->) T1]; subst. apply total_none in T1; [|repeat constructor]. subst r.
        assert (k = 0)%nat as -> by (destruct Hk as (Hk & _); cbn in Hk; lia). reflexivity.
      + apply total_none in T; auto. unfold curves_of. apply Forall_forall. intros c Hc. apply in_map_iff in Hc. destruct Hc as (j & <- & _).
        unfold has_curve. rewrite Z2Nat.id by lia. destruct (Z.eqb_spec id (Z.of_nat SET_OPAQUE_MULTIPLY)); [contradiction|]. reflexivity.
  Qed.

  (** Whatever was done to the brush before, loading the defaults succeeds, the
      settings are exactly the documented ones, and nothing else changes. *)
  Theorem C35_defaults : nle (nofZ 0 : S) (nofZ 1) = true -> forall b : brush, reachable L b ->
    exists b', from_defaults L b = Ok b' /\ shows_defaults b' /\ computes_defaults b' /\
      (b_states b', b_buckets b', b_rng b', b_painting b', b_idling b', b_reset b') =
      (b_states b, b_buckets b, b_rng b, b_painting b, b_idling b, b_reset b).
  Proof. intros Hle b R. apply loads_defaults; auto. apply reachable_shape in R. apply R. Qed.

  (** So any two brushes agree after loading the defaults, on every input. *)
  Theorem C35_independent : nle (nofZ 0 : S) (nofZ 1) = true -> forall (b1 b2 : brush) b1' b2' data, reachable L b1 -> reachable L b2 ->
    from_defaults L b1 = Ok b1' -> from_defaults L b2 = Ok b2' -> length data = INPUTS_COUNT ->
    calculate_all (b_settings b1') data = calculate_all (b_settings b2') data.
  Proof.
    intros Hle b1 b2 b1' b2' data R1 R2 E1 E2 Ld. destruct (C35_defaults Hle b1 R1) as (c1 & F1 & _ & C1 & _). destruct (C35_defaults Hle b2 R2) as (c2 & F2 & _ & C2 & _).
    rewrite E1 in F1. injection F1 as <-. rewrite E2 in F2. injection F2 as <-.
    destruct (C1 data Ld) as (v1 & G1 & A1). destruct (C2 data Ld) as (v2 & G2 & A2). rewrite G1, G2. f_equal.
    assert (length (b_settings b1') = SETTINGS_COUNT /\ length (b_settings b2') = SETTINGS_COUNT) as [Ln1 Ln2].
    { apply reachable_shape in R1. apply reachable_shape in R2. destruct R1 as (_ & R1 & _). destruct R2 as (_ & R2 & _).
      apply settings_history in R1. apply settings_history in R2. destruct R1 as (h1 & H1). destruct R2 as (h2 & H2).
      destruct (defaults_history L Hle _ _ H1) as (x1 & X1 & _ & [Y1 _]). destruct (defaults_history L Hle _ _ H2) as (x2 & X2 & _ & [Y2 _]).
      rewrite E1 in X1. injection X1 as <-. rewrite E2 in X2. injection X2 as <-. auto. }
    apply calculate_length in G1. apply calculate_length in G2. rewrite Ln1 in G1. rewrite Ln2 in G2.
    apply (nth_ext _ _ (nofZ 0) (nofZ 0)); [congruence|]. intros n Hn. rewrite G1 in Hn.
    specialize (A1 (Z.of_nat n)). specialize (A2 (Z.of_nat n)). rewrite Nat2Z.id in *. rewrite A1, A2 by lia. reflexivity.
  Qed.
End Defaults.

(** The condition on the numbers, for C floats and for reals. *)
Example C35_case_order : nle (nofZ 0 : sng mix64) (nofZ 1) = true /\ nle (nofZ 0 : sng mixR) (nofZ 1) = true.
Proof. split; [vm_compute; reflexivity|]. apply Raux.Rle_bool_true. cbn. lra. Qed.

(** A brush with other base values and a curve on the radius, in floats: after
    loading the defaults the radius is 2, the curve is gone, and opaque_multiply
    follows pressure. *)
Definition dirty : calls :=
  [set_base SET_RADIUS_LOGARITHMIC (flit 5 1); CMapN (M := mix64) (zid SET_RADIUS_LOGARITHMIC) (zid INP_RANDOM) 2;
   CMapPoint (M := mix64) (zid SET_RADIUS_LOGARITHMIC) (zid INP_RANDOM) 0 f0 f0;
   CMapPoint (M := mix64) (zid SET_RADIUS_LOGARITHMIC) (zid INP_RANDOM) 1 f1 f1; CStroke (pen 0 0 0 10)].
Example C35_case : exists (b b' : brush toy) w, session 0 dirty = Ok (Some (b, w)) /\ reachable toy_lib b /\
  get_mapping_n b (zid SET_RADIUS_LOGARITHMIC) (zid INP_RANDOM) = Ok 2 /\ from_defaults toy_lib b = Ok b' /\
  get_mapping_n b' (zid SET_RADIUS_LOGARITHMIC) (zid INP_RANDOM) = Ok 0 /\
  match get_base_value b' (zid SET_RADIUS_LOGARITHMIC) with Ok r => feq r (flit 2 1) | _ => false end = true.
Proof.
  destruct (after_ok 0 dirty (fun b w => match get_mapping_n b (zid SET_RADIUS_LOGARITHMIC) (zid INP_RANDOM) with Ok n => n =? 2 | _ => false end) ltac:(vm_compute; reflexivity))
    as (b & w & Es & H).
  assert (reachable toy_lib b) as R by (eapply session_reachable; [|exact Es]; lia).
  destruct (C35_defaults toy_lib (proj1 C35_case_order) b R) as (b' & E1 & (S1 & S2 & _) & _).
  exists b, b', w. split; [exact Es|]. split; [exact R|]. split.
  { destruct (get_mapping_n b _ _) as [n| |]; try discriminate H. apply Z.eqb_eq in H. congruence. }
  split; [exact E1|]. split.
  - rewrite S2 by (vm_compute; split; congruence). reflexivity.
  - rewrite S1 by (vm_compute; split; congruence). vm_compute. reflexivity.
Qed.

Print Assumptions C35_defaults.
Print Assumptions C35_independent.
