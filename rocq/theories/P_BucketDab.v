(** C29, C30: what painting does to the smudge buckets.  A brush with a fixed
    bucket never touches the others. *)
From Verif Require Import Base F32 F32Proofs Arith Color Mapping P_Mapping Settings Spectral Brush BrushProofs BrushInst BrushToy Rect RecolourProofs P_Bucket P_Reset.
From Verif Require BoxProofs.
From Coq Require Import Reals Lra.
From Flocq Require Import Core.Core IEEE754.BinarySingleNaN.
Local Open Scope Z_scope.

Section Kept.
  Context {M : mixed} (L : mathlib M) {E : env M}.
  Notation S := (car (sng M)).
  Notation brush := (brush E).
  Notation s z := (@nofZ (sng M) z).

  (** [same_outside i m m']: the numbers of all buckets but [i] are what they were;
      [wiped i m m']: each is what it was or zero *)
  Definition outside (i : Z) (c : nat) : Prop := ~ (9 * i <= Z.of_nat c < 9 * i + 9).
  Definition compare (P : nat -> S -> S -> Prop) (b b' : brush) : Prop :=
    b_nbuckets b' = b_nbuckets b /\
    match b_buckets b, b_buckets b' with
    | Some m, Some m' => length m' = length m /\ forall c, (c < length m)%nat -> P c (nth c m (s 0)) (nth c m' (s 0))
    | None, None => True
    | _, _ => False
    end.
  Definition same_outside (i : Z) : brush -> brush -> Prop := compare (fun c v v' => outside i c -> v' = v).
  Definition wiped_outside (i : Z) : brush -> brush -> Prop := compare (fun c v v' => outside i c -> v' = v \/ v' = s 0).

  Lemma same_of : forall i (b b' : brush), b_nbuckets b' = b_nbuckets b -> b_buckets b' = b_buckets b -> same_outside i b b'.
  Proof. intros i b b' N B. split; [exact N|]. rewrite B. destruct (b_buckets b); auto. Qed.
  Lemma same_trans' : forall i (a b c : brush), same_outside i a b -> same_outside i b c -> same_outside i a c.
  Proof.
    intros i a b c (N1 & H1) (N2 & H2). split; [congruence|]. destruct (b_buckets a), (b_buckets b), (b_buckets c); try tauto.
    destruct H1 as (L1 & H1), H2 as (L2 & H2). split; [congruence|]. intros k Hk O. rewrite H2, H1; auto. rewrite L1. exact Hk.
  Qed.
  Lemma same_wiped : forall i (a b : brush), same_outside i a b -> wiped_outside i a b.
  Proof. intros i a b (N & H). split; [exact N|]. destruct (b_buckets a), (b_buckets b); auto. destruct H as (Ln & H). split; [exact Ln|]. intros c Hc O. left. auto. Qed.
  Lemma wiped_trans : forall i (a b c : brush), wiped_outside i a b -> wiped_outside i b c -> wiped_outside i a c.
  Proof.
    intros i a b c (N1 & H1) (N2 & H2). split; [congruence|]. destruct (b_buckets a), (b_buckets b), (b_buckets c); try tauto.
    destruct H1 as (L1 & H1), H2 as (L2 & H2). split; [congruence|]. intros k Hk O.
    destruct (H2 k) as [->| ->]; [rewrite L1; exact Hk|exact O|exact (H1 k Hk O)|right; reflexivity].
  Qed.

  (** the smudge_bucket setting has a fixed value, by which the engine picks bucket [i] *)
  Definition picks (n : Z) (v : S) (i : Z) : Prop := forall k,
    to_i (@wid M (if nlt (s (n - 1)) (roundf_ L v) then s (n - 1) else if nlt (roundf_ L v) (s 0) then s 0 else roundf_ L v)) = Ok k -> k = i.
  Definition fixed_bucket (i : Z) (b : brush) : Prop := forall m, nth_error (b_settings b) SET_SMUDGE_BUCKET = Some m -> mp_used m = 0 /\ picks (b_nbuckets b) (mp_base m) i.

  Lemma fetch_same : forall i (b : brush) pl b', picks (b_nbuckets b) (val b SET_SMUDGE_BUCKET) i -> fetch_bucket L b = Ok (pl, b') ->
    same_outside i b b' /\ (pl = InStates \/ pl = InBuckets (i * 9)).
  Proof.
    intros i b pl b' H F. unfold fetch_bucket in F. destruct (b_buckets b) as [mem|] eqn:Eb.
    2:{ apply Ok_inj in F. injection F as <- <-. split; [apply same_of; reflexivity|auto]. }
    destruct (b_nbuckets b =? 0). { apply Ok_inj in F. injection F as <- <-. split; [apply same_of; reflexivity|auto]. }
    cbv zeta in F. apply obind_ok in F. destruct F as (k & Ek & F). apply H in Ek. subst k. apply obind_ok in F. destruct F as (off & Eo & F). unfold int_val in Eo. destruct (Base.in_int _); [|discriminate Eo].
    apply Ok_inj in Eo. subst off. apply Ok_inj in F. injection F as <- <-. split; [apply same_of; [reflexivity|cbn; rewrite Eb; reflexivity]|auto].
  Qed.
  Lemma write_same : forall i (b : brush) pl k b', pl = InStates \/ pl = InBuckets (i * 9) -> write_place b pl k = Ok b' -> same_outside i b b'.
  Proof.
    intros i b pl k b' [-> | ->] W; unfold write_place in W.
    - apply obind_ok in W. destruct W as (l & _ & W). apply Ok_inj in W. subst b'. apply same_of; reflexivity.
    - destruct (b_buckets b) as [mem|] eqn:Eb; [|discriminate W]. apply obind_ok in W. destruct W as (mem' & Ew & W). apply Ok_inj in W. subst b'.
      split; [reflexivity|]. cbn [with_buckets b_buckets]. rewrite Eb. split; [apply write9_length in Ew; tauto|]. intros c _ O. rewrite (nth_written _ _ _ _ _ _ Ew). unfold outside in O.
      destruct (Z.leb_spec (i * 9) (Z.of_nat c)); cbn [andb]; [|reflexivity]. destruct (Z.ltb_spec (Z.of_nat c) (i * 9 + 9)); [lia|reflexivity].
  Qed.

  (** one dab *)
  Lemma dab_same : forall i (b : brush) w lin r b' w', picks (b_nbuckets b) (val b SET_SMUDGE_BUCKET) i -> prepare_and_draw_dab L b w lin = Ok (r, b', w') -> same_outside i b b'.
  Proof.
    intros i b w lin r b' w' P H. unfold prepare_and_draw_dab in H. cbv zeta in H.
    apply obind_ok in H. destruct H as (((x, y), b1) & E1 & H).
    assert (F1 : b_nbuckets b1 = b_nbuckets b /\ b_buckets b1 = b_buckets b /\ b_values b1 = b_values b).
    { unfold dab_position in E1. cbv zeta in E1. apply obind_ok in E1. destruct E1 as (fl & _ & E1).
      destruct (truthy (val b SET_OFFSET_BY_RANDOM)).
      - apply obind_ok in E1. destruct E1 as ((r1, g1) & _ & E1). apply obind_ok in E1. destruct E1 as ((r2, g2) & _ & E1). apply Ok_inj in E1. injection E1 as _ _ <-. auto.
      - apply Ok_inj in E1. injection E1 as _ _ <-. auto. }
    apply obind_ok in H. destruct H as (((rad, op), b2) & E2 & H).
    assert (F2 : b_nbuckets b2 = b_nbuckets b /\ b_buckets b2 = b_buckets b /\ b_values b2 = b_values b).
    { unfold dab_size in E2. cbv zeta in E2. destruct (truthy (val b1 SET_RADIUS_BY_RANDOM)).
      - apply obind_ok in E2. destruct E2 as ((r1, g1) & _ & E2). apply Ok_inj in E2. injection E2 as _ _ <-. exact F1.
      - apply Ok_inj in E2. injection E2 as _ _ <-. exact F1. }
    clear E1 F1 E2. destruct F2 as (N2 & B2 & V2). assert (picks (b_nbuckets b2) (val b2 SET_SMUDGE_BUCKET) i) as P2 by (unfold val; rewrite N2, V2; exact P).
    eapply same_trans'; [apply (same_of i b b2); auto|]. clear N2 B2 V2 P.
    apply obind_ok in H. destruct H as (c & _ & H). apply obind_ok in H. destruct H as (((early, b3), w3) & E3 & H).
    assert (same_outside i b2 b3 /\ b_values b3 = b_values b2) as (F3 & V3).
    { clear H. match type of E3 with (if ?c then _ else _) = _ => destruct c end.
      - apply obind_ok in E3. destruct E3 as ((pl, b4) & Ef & E3). apply obind_ok in E3. destruct E3 as (px & _ & E3).
        apply obind_ok in E3. destruct E3 as (py & _ & E3). apply obind_ok in E3. destruct E3 as (k & _ & E3).
        apply obind_ok in E3. destruct E3 as (((ea, k'), w4) & _ & E3). apply obind_ok in E3. destruct E3 as (b5 & Ew & E3).
        apply Ok_inj in E3. injection E3 as _ <- _. destruct (fetch_same i _ _ _ P2 Ef) as (S4 & Hp). split; [eapply same_trans'; [exact S4|eapply write_same; eauto]|].
        apply fetch_frame in Ef. apply write_place_frame in Ew. destruct Ef as (Q1 & _), Ew as (Q2 & _). rewrite Q2. cbn. rewrite Q1. reflexivity.
      - apply Ok_inj in E3. injection E3 as _ <- _. split; [apply same_of; reflexivity|reflexivity]. }
    clear E3. destruct early. { apply Ok_inj in H. injection H as _ <- _. exact F3. }
    assert (picks (b_nbuckets b3) (val b3 SET_SMUDGE_BUCKET) i) as P3 by (unfold val; rewrite V3, (proj1 F3); exact P2).
    eapply same_trans'; [exact F3|]. clear F3 V3 P2.
    apply obind_ok in H. destruct H as ((((al, c'), b4), w4) & E4 & H).
    assert (F4 : same_outside i b3 b4).
    { clear H. match type of E4 with (if ?c then _ else _) = _ => destruct c end.
      - apply obind_ok in E4. destruct E4 as ((pl, b5) & Ef & E4). apply obind_ok in E4. destruct E4 as (k & _ & E4).
        destruct (apply_smudge _ _ _ _ _ _ _) as ((al', c''), w''). apply Ok_inj in E4. injection E4 as _ _ <- _. exact (proj1 (fetch_same i _ _ _ P3 Ef)).
      - apply Ok_inj in E4. injection E4 as _ _ <- _. apply same_of; reflexivity. }
    clear E4. apply obind_ok in H. destruct H as (c'' & _ & H).
    destruct (anti_alias _ _ _) as [ra ha]. destruct (snap_pixel _ _ _ _ _) as [[xx yy] rr]. destruct c'' as [[cr cg] cb].
    apply obind_ok in H. destruct H as ((pt, sf) & _ & H). apply Ok_inj in H. injection H as _ <- _. exact F4.
  Qed.

  (** all dabs of an event *)
  Definition plainly (b b' : brush) : Prop := b_nbuckets b' = b_nbuckets b /\ b_buckets b' = b_buckets b /\ b_settings b' = b_settings b.
  Lemma os_plainly : forall b b' : brush, only_states b b' -> plainly b b'.
  Proof. intros b b' (-> & _). repeat split. Qed.
  Lemma update_plainly : forall (b : brush) p b', update_states L b p = Ok b' -> plainly b b' /\
    forall m, nth_error (b_settings b) SET_SMUDGE_BUCKET = Some m -> mp_used m = 0 -> val b' SET_SMUDGE_BUCKET = mp_base m.
  Proof.
    intros b p b' U. apply update_inv in U. destruct U as (vs & Ev & ->). pose proof (os_plainly _ _ (step_pen_os L b p)) as A.
    pose proof (step_filters_os L (with_values (step_pen L b p) vs) p) as O. revert Ev A O. generalize (step_filters L (with_values (step_pen L b p) vs) p) as bf. intros bf. generalize (step_inputs L (step_pen L b p)) as data. generalize (step_pen L b p) as b1.
    intros b1 data Ev (A1 & A2 & A3) O. pose proof (os_plainly _ _ O) as (B1 & B2 & B3). cbn [with_values b_nbuckets b_buckets b_settings] in *.
    split; [split; [congruence|]; split; congruence|]. intros m Em U. unfold val. destruct O as (-> & _). cbn [with_states with_values b_values].
    pose proof (calc_nth _ _ _ SET_SMUDGE_BUCKET Ev) as N. rewrite Em in N. unfold mapping_calculate in N. rewrite U in N. apply Ok_inj in N. symmetry. exact N.
  Qed.
  Lemma fixed_plainly : forall i (b b' : brush), b_nbuckets b' = b_nbuckets b -> b_settings b' = b_settings b -> fixed_bucket i b -> fixed_bucket i b'.
  Proof. intros i b b' N Es F. unfold fixed_bucket. rewrite N, Es. exact F. Qed.
  (** settings of all kinds are there *)
  Definition has_settings (b : brush) : Prop := length (b_settings b) = SETTINGS_COUNT.
  Definition steady (i : Z) (b b' : brush) : Prop := same_outside i b b' /\ b_settings b' = b_settings b.
  Lemma steady_plainly : forall i (b b' : brush), plainly b b' -> steady i b b'.
  Proof. intros i b b' (A & B & C). split; [apply same_of; auto|exact C]. Qed.
  Lemma steady_trans : forall i (a b c : brush), steady i a b -> steady i b c -> steady i a c.
  Proof. intros i a b c (A1 & A2) (B1 & B2). split; [eapply same_trans'; eauto|congruence]. Qed.
  Lemma steady_keeps : forall i (b b' : brush), steady i b b' -> fixed_bucket i b /\ has_settings b -> fixed_bucket i b' /\ has_settings b'.
  Proof. intros i b b' ((N & _) & Es) (F & H). split; [eapply fixed_plainly; eauto|unfold has_settings; rewrite Es; exact H]. Qed.

  Lemma one_dab_steady : forall i g p p', fixed_bucket i (p_brush p) /\ has_settings (p_brush p) -> one_dab L g p = Ok p' -> steady i (p_brush p) (p_brush p').
  Proof.
    intros i g p p' (F & Hs) O. unfold one_dab in O. cbv zeta in O.
    match type of O with (let '(_, _) := ?e in _) = _ => destruct e as [ddab moved] end.
    apply obind_ok in O. destruct O as (b1 & E1 & O). apply update_plainly in E1. destruct E1 as (P1 & V1).
    assert (exists m, nth_error (b_settings (p_brush p)) SET_SMUDGE_BUCKET = Some m) as (m & Em).
    { destruct (nth_error (b_settings (p_brush p)) SET_SMUDGE_BUCKET) eqn:En; [eauto|]. apply nth_error_None in En. unfold has_settings in Hs. rewrite Hs in En. vm_compute in En. lia. }
    destruct (F m Em) as (U & Pk). specialize (V1 m Em U).
    apply obind_ok in O. destruct O as (((pn, b2), w2) & E2 & O). pose proof (prepare_frame L _ _ _ _ _ _ E2) as (Fr & _).
    apply (dab_same i) in E2; [|change (picks (b_nbuckets b1) (val b1 SET_SMUDGE_BUCKET) i); rewrite V1, (proj1 P1); exact Pk].
    assert (b_settings b2 = b_settings b1) as S2 by (rewrite Fr; reflexivity).
    apply obind_ok in O. destruct O as ((r, rg) & _ & O).
    match type of O with context [count_dabs_to ?a ?b ?c ?d ?e] => destruct (count_dabs_to a b c d e) as [todo b3] eqn:E3 end.
    apply Ok_inj in O. subst p'. cbn [p_brush]. apply count_os in E3. apply os_plainly in E3.
    eapply steady_trans; [apply (steady_plainly i _ b1 P1)|]. eapply (steady_trans i b1 b2); [split; [|exact S2]|].
    - eapply same_trans'; [|exact E2]. apply same_of; reflexivity.
    - eapply steady_trans; [|apply (steady_plainly i _ _ E3)]. split; [apply same_of; reflexivity|reflexivity].
  Qed.
  Lemma dabs_steady : forall i fuel g p p', fixed_bucket i (p_brush p) /\ has_settings (p_brush p) -> dabs L fuel g p = Ok (Some p') -> steady i (p_brush p) (p_brush p').
  Proof.
    induction fuel as [|fuel IH]; intros g p p' H O; cbn [dabs] in O; destruct (pending p); try discriminate O.
    - apply Ok_inj in O. injection O as <-. apply steady_plainly. repeat split.
    - apply obind_ok in O. destruct O as (p1 & E1 & O). apply (one_dab_steady i) in E1; [|exact H]. eapply steady_trans; [exact E1|]. eapply IH; [|exact O]. eapply steady_keeps; eauto.
    - apply Ok_inj in O. injection O as <-. apply steady_plainly. repeat split.
  Qed.
  Lemma split_plainly : forall (b : brush) pt pr dp dt a b', stroke_split b pt pr dp dt = (a, b') -> plainly b b'.
  Proof.
    intros b pt pr dp dt a b' E0. unfold stroke_split in E0. cbv zeta in E0. revert E0.
    generalize (match pt with Some v => v | None => negb (nlt (nofZ 0) (b_idling b) || neqb (b_painting b) (nofZ 0)) end).
    intros [|] E0; [injection E0 as _ <-; repeat split|]. match type of E0 with (if ?c then _ else _) = _ => destruct c end; injection E0 as _ <-; repeat split.
  Qed.
  Lemma paint_steady : forall i fuel (b : brush) w g dt a b' w', fixed_bucket i b /\ has_settings b -> paint_to L fuel b w g dt = Ok (Some (a, b', w')) -> steady i b b'.
  Proof.
    intros i fuel b w g dt a b' w' H O. unfold paint_to in O. apply obind_ok in O. destruct O as ([p|] & E1 & O); [|discriminate O].
    assert (steady i b (p_brush p)) as Hp.
    { unfold paint_dabs in E1. cbv zeta in E1. destruct (count_dabs_to _ _ _ _ _) as [todo b1] eqn:Ec. apply count_os in Ec. apply os_plainly in Ec. apply (steady_plainly i) in Ec.
      apply (dabs_steady i) in E1; [|cbn [p_brush]; eapply steady_keeps; eauto]. eapply steady_trans; eauto. }
    apply obind_ok in O. destruct O as ((a', b1) & E2 & O). apply Ok_inj in O. injection O as <- <- _.
    unfold paint_rest in E2. apply obind_ok in E2. destruct E2 as (b2 & E2 & E3). cbv zeta in E3. apply Ok_inj in E3. apply split_plainly in E3. apply update_plainly in E2.
    eapply steady_trans; [exact Hp|]. eapply steady_trans; [apply steady_plainly; apply E2|]. apply (steady_plainly i) in E3. eapply steady_trans; [|exact E3]. split; [apply same_of; reflexivity|reflexivity].
  Qed.

  (** an event: dabs, or a reset *)
  Definition faded (i : Z) (b b' : brush) : Prop := wiped_outside i b b' /\ b_settings b' = b_settings b.
  Lemma steady_faded : forall i (b b' : brush), steady i b b' -> faded i b b'.
  Proof. intros i b b' (A & B). split; [apply same_wiped; exact A|exact B]. Qed.
  Lemma faded_trans : forall i (a b c : brush), faded i a b -> faded i b c -> faded i a c.
  Proof. intros i a b c (A1 & A2) (B1 & B2). split; [eapply wiped_trans; eauto|congruence]. Qed.
  Lemma reset_faded : forall i (b : brush) x y pr b', bok b -> do_reset b x y pr = Ok b' -> faded i b b'.
  Proof.
    intros i b x y pr b' B O. unfold do_reset in O. apply obind_ok in O. destruct O as (b1 & E1 & O).
    assert (faded i b b1) as F1.
    { unfold brush_reset in E1. cbv zeta in E1. cbn [with_states with_skip with_reset b_buckets b_minb b_maxb] in E1. unfold bok in B.
      destruct (b_buckets b) as [mem|] eqn:Eb; [|apply Ok_inj in E1; subst b1; split; [apply same_wiped, same_of; reflexivity|reflexivity]].
      cbn [buckets_ok] in B. destruct B as (P & Ln & R & X). destruct (Z.eqb_spec (b_minb b) (-1)); cbn [negb] in E1; [apply Ok_inj in E1; subst b1; split; [apply same_wiped, same_of; reflexivity|reflexivity]|].
      destruct R as [R|R]; [lia|]. destruct (clear_ok mem (b_minb b) ((b_maxb b - b_minb b + 1) * 9)) as (mem' & Ec & Lc & Nc); [lia..|].
      rewrite Ec in E1. cbn [obind] in E1. apply Ok_inj in E1. subst b1. split; [|reflexivity]. split; [reflexivity|]. cbn [with_buckets b_buckets]. rewrite Eb. split; [exact Lc|].
      intros c Hc _. rewrite (Nc c Hc). destruct (_ && _); auto. }
    apply obind_ok in O. destruct O as ((r, g) & _ & O). cbv zeta in O. apply Ok_inj in O. subst b'. eapply faded_trans; [exact F1|]. split; [apply same_wiped, same_of; reflexivity|reflexivity].
  Qed.
  Lemma rest_faded : forall i fuel (b : brush) w t e a b' w', shape b -> fixed_bucket i b -> stroke_rest L fuel b w t e = Ok (Some (a, b', w')) -> faded i b b'.
  Proof.
    intros i fuel b w t e a b' w' H F O. unfold stroke_rest in O. destruct (skip_input _ _ _ _ _) as [b1 go] eqn:E1. apply skip_fields in E1.
    assert (shape b1 /\ plainly b b1) as (H1 & P1) by (rewrite E1; split; [exact H|repeat split]). clear E1. destruct go as [dt|].
    2:{ apply Ok_inj in O. injection O as _ <- _. apply steady_faded, steady_plainly. exact P1. }
    apply obind_ok in O. destruct O as (((x, y), b2) & E2 & O). apply track_fields in E2.
    assert (shape b2 /\ plainly b1 b2) as (H2 & P2) by (rewrite E2; split; [exact H1|repeat split]). clear E2.
    assert (steady i b b2) as St by (eapply steady_trans; apply steady_plainly; eauto).
    eapply faded_trans; [apply steady_faded; exact St|]. match type of O with (if ?c then _ else _) = _ => destruct c end.
    - apply obind_ok in O. destruct O as (b3 & E3 & O). apply Ok_inj in O. injection O as _ <- _. eapply reset_faded; [apply H2|exact E3].
    - apply steady_faded. eapply paint_steady; [|exact O]. split; [eapply fixed_plainly; [apply St|apply St|exact F]|apply H2].
  Qed.
  Lemma stroke_faded : forall i fuel (b : brush) w e a b' w', shape b -> fixed_bucket i b -> stroke_to L fuel b w e = Ok (Some (a, b', w')) -> faded i b b'.
  Proof.
    intros i fuel b w e a b' w' H F O. unfold stroke_to in O. apply obind_ok in O. destruct O as ((t, e1) & _ & O).
    match type of O with (if ?c then _ else _) = _ => destruct c end; [|eapply rest_faded; eauto].
    apply obind_ok in O. destruct O as ((t', e') & _ & O). apply obind_ok in O. destruct O as (r & E1 & O).
    destruct r as [((a1, b1), w1)|]; [|discriminate O]. pose proof (stroke_rest_shape L _ _ _ _ _ _ _ _ H E1) as H1. apply (rest_faded i) in E1; [|exact H|exact F].
    eapply faded_trans; [exact E1|]. eapply rest_faded; [exact H1| |exact O]. destruct E1 as ((N & _) & Es). eapply fixed_plainly; eauto.
  Qed.
  (** an event handled in one go: dabs, which keep the others exactly, or a reset *)
  Lemma event_steady : forall i fuel (b : brush) w e a b' w', shape b -> fixed_bucket i b -> in_one_go L b e -> stroke_to L fuel b w e = Ok (Some (a, b', w')) ->
    steady i b b' \/ (a = true /\ w' = w /\ exists x y p, b_states b' = initial_states x y p).
  Proof.
    intros i fuel b w e a b' w' H F G O. unfold stroke_to in O. apply obind_ok in O. destruct O as ((t, e1) & Es & O). rewrite (G t e1 Es) in O.
    unfold stroke_rest in O. destruct (skip_input _ _ _ _ _) as [b1 go] eqn:E1. apply skip_fields in E1.
    assert (shape b1 /\ plainly b b1) as (H1 & P1) by (rewrite E1; split; [exact H|repeat split]). clear E1. destruct go as [dt|].
    2:{ apply Ok_inj in O. injection O as _ <- _. left. apply steady_plainly. exact P1. }
    apply obind_ok in O. destruct O as (((x, y), b2) & E2 & O). apply track_fields in E2.
    assert (shape b2 /\ plainly b1 b2) as (H2 & P2) by (rewrite E2; split; [exact H1|repeat split]). clear E2.
    assert (steady i b b2) as St by (eapply steady_trans; apply steady_plainly; eauto). match type of O with (if ?c then _ else _) = _ => destruct c end.
    - apply obind_ok in O. destruct O as (b3 & E3 & O). apply Ok_inj in O. injection O as <- <- <-. right. split; [reflexivity|]. split; [reflexivity|]. exists x, y, (ev_pressure e1). exact (proj1 (do_reset_states _ _ _ _ _ E3)).
    - left. eapply steady_trans; [exact St|]. eapply paint_steady; [|exact O]. split; [eapply fixed_plainly; [apply St|apply St|exact F]|apply H2].
  Qed.
End Kept.

(** ** C29: the engine and its buckets, in C floats *)
Section Engine.
  Context (L : mathlib mix64) {E : env mix64}.
  Notation brush := (brush E).

  (** the float [v] is the whole number [i] *)
  Definition whole (i : Z) (v : f32) : Prop := fin v /\ b2r v = IZR i.
  (** roundf leaves whole numbers alone *)
  Definition rounds_well : Prop := forall i (v : f32), 0 <= i -> whole i v -> whole i (roundf_ L v).
  (** The brush uses bucket [i]: its smudge_bucket setting is that number, without curves. *)
  Definition uses_bucket (i : Z) (b : brush) : Prop :=
    (exists v, get_base_value b (Z.of_nat SET_SMUDGE_BUCKET) = Ok v /\ whole i v) /\ is_constant b (Z.of_nat SET_SMUDGE_BUCKET) = Ok true.

  Lemma whole_picks : rounds_well -> forall n i v, 0 < n <= 16777217 -> 0 <= i < n -> whole i v -> picks L n v i.
  Proof.
    intros RW n i v Hn Hi W k. destruct (RW i v (proj1 Hi) W) as (F & V). set (q := (roundf_ L v : f32)) in *. change (roundf_ L v : car (sng mix64)) with q. clearbody q.
    cbn [mix64 to_i wid sng dbl num32 num64 nlt nofZ car]. destruct (f_of_Z_exact (n - 1)) as [Vn Fn]; [lia|]. destruct (f_of_Z_exact 0) as [V0 F0]; [lia|].
    rewrite !flt_spec by auto. rewrite Vn, V0, V. destruct (Rlt_bool_spec (IZR (n - 1)) (IZR i)) as [Q|_]; [apply lt_IZR in Q; lia|]. destruct (Rlt_bool_spec (IZR i) 0) as [Q|_]; [apply lt_IZR in Q; lia|].
    intros H. destruct (d_of_f_exact q F) as [Vd Fd]. unfold d_to_int, d_to_Z in H.
    unfold fin in Fd. rewrite Fd in H. destruct (_ && _); [|discriminate H]. apply Ok_inj in H. subst k.
    rewrite (trunc_spec 53 1024 emax53), Vd, V, Ztrunc_IZR. reflexivity.
  Qed.
  Lemma uses_fixed : rounds_well -> forall i (b : brush), 0 < b_nbuckets b <= 16777217 -> 0 <= i < b_nbuckets b -> uses_bucket i b -> fixed_bucket L i b.
  Proof.
    intros RW i b Hn Hi ((v & Ev & W) & Ec) m Em. unfold get_base_value, is_constant in *.
    assert (setting_of b (Z.of_nat SET_SMUDGE_BUCKET) = Ok m) as Es by (unfold setting_of; rewrite Nat2Z.id, Em; reflexivity).
    rewrite Es in Ev, Ec. cbn [obind] in Ev, Ec. apply Ok_inj in Ev. apply Ok_inj in Ec. subst v.
    split; [unfold mapping_is_constant in Ec; apply Z.eqb_eq in Ec; exact Ec|apply whole_picks; auto].
  Qed.

  (** the nine numbers of two contents of a bucket, compared one by one *)
  Definition each (P : f32 -> f32 -> Prop) (k k' : bucket mix64) : Prop := Forall2 P (bucket_list k : list f32) (bucket_list k').
  Lemma compare_bucket : forall (P : f32 -> f32 -> Prop) i j (b b' : brush), reachable L b -> 0 <= j < b_nbuckets b -> j <> i -> compare (M := mix64) (fun c v v' => outside i c -> P v v') b b' ->
    exists k k', engine_bucket b j = Ok k /\ engine_bucket b' j = Ok k' /\ each P k k'.
  Proof.
    intros P i j b b' R Hj N (_ & C). destruct (memory L b R j Hj) as (mem & Em & Lm). unfold engine_bucket, read_place. rewrite Em in *. destruct (b_buckets b') as [mem'|]; [|destruct C]. destruct C as (Ll & C).
    destruct (read9_ok mem (j * 9)) as (k & Rk); [lia..|]. destruct (read9_ok mem' (j * 9)) as (k' & Rk'); [lia..|]. exists k, k'. split; [exact Rk|]. split; [exact Rk'|].
    apply (read9_cells _ _ _ (nofZ 0)) in Rk; [|lia..]. apply (read9_cells _ _ _ (nofZ 0)) in Rk'; [|lia..]. unfold each. rewrite <- Rk, <- Rk'.
    assert (forall l, (forall c, In c l -> (c < 9)%nat) -> Forall2 P (map (fun c => nth (Z.to_nat (j * 9) + c) mem (nofZ 0)) l) (map (fun c => nth (Z.to_nat (j * 9) + c) mem' (nofZ 0)) l)) as K.
    { induction l as [|c l IH]; intros Hl; cbn [map]; constructor; [|apply IH; intros; apply Hl; right; auto].
      assert (c < 9)%nat by (apply Hl; left; reflexivity). apply C; [lia|]. unfold outside. lia. }
    apply K. intros c I. apply in_seq in I. lia.
  Qed.

  (** A dab changes no bucket but the one whose number the smudge_bucket setting
      (as it is for this dab) says. *)
  Theorem C29_dab_other_buckets : rounds_well -> forall (b : brush) w linear painted b' w' i j, reachable L b -> b_nbuckets b <= 16777217 ->
    0 <= i < b_nbuckets b -> whole i (val b SET_SMUDGE_BUCKET) -> prepare_and_draw_dab L b w linear = Ok (painted, b', w') ->
    0 <= j < b_nbuckets b -> j <> i -> engine_bucket b' j = engine_bucket b j.
  Proof.
    intros RW b w lin r b' w' i j R Hn Hi W D Hj N. apply (dab_same L i) in D; [|apply whole_picks; auto; lia].
    destruct (compare_bucket (fun v v' => v' = v) i j b b' R Hj N D) as (k & k' & -> & -> & F). f_equal. apply list_inj. unfold each in F.
    induction F as [|? ? ? ? Q F IH]; [reflexivity|]. f_equal; auto.
  Qed.

  (** An event handled in one go leaves every other bucket exactly as it is,
      unless it resets the brush: then it answers so, draws nothing and leaves the
      states of a brush that starts anew. *)
  Theorem C29_event_other_buckets : rounds_well -> forall fuel (b : brush) w e answer b' w' i, reachable L b -> b_nbuckets b <= 16777217 ->
    0 <= i < b_nbuckets b -> uses_bucket i b -> in_one_go L b e -> stroke_to L fuel b w e = Ok (Some (answer, b', w')) ->
    (forall j, 0 <= j < b_nbuckets b -> j <> i -> engine_bucket b' j = engine_bucket b j) \/
    (answer = true /\ w' = w /\ exists x y pressure, b_states b' = initial_states x y pressure).
  Proof.
    intros RW fuel b w e a b' w' i R Hn Hi U G H. assert (fixed_bucket L i b) as F by (apply uses_fixed; auto; lia).
    destruct (event_steady L i fuel b w e a b' w' (reachable_shape L b R) F G H) as [(D & _)|D]; [left|right; exact D]. intros j Hj N.
    destruct (compare_bucket (fun v v' => v' = v) i j b b' R Hj N D) as (k & k' & -> & -> & Q). f_equal. apply list_inj. unfold each in Q.
    induction Q as [|? ? ? ? Q1 Q IH]; [reflexivity|]. f_equal; auto.
  Qed.

  (** Events, one after the other. *)
  Fixpoint pen_events (fuel : nat) (b : brush) (w : world E) (es : list (event mix64)) : outcome (option (brush * world E)) :=
    match es with
    | [] => Ok (Some (b, w))
    | e :: es => let* r := stroke_to L fuel b w e in match r with None => Ok None | Some (_, b, w) => pen_events fuel b w es end
    end.
  (** Whatever a brush that uses bucket [i] paints, nothing gets into another
      bucket: each of its nine numbers is what it was, or zero (long pauses reset
      the brush and empty buckets). *)
  Theorem C29_events_other_buckets : rounds_well -> forall fuel es (b : brush) w b' w' i j, reachable L b -> b_nbuckets b <= 16777217 ->
    0 <= i < b_nbuckets b -> uses_bucket i b -> pen_events fuel b w es = Ok (Some (b', w')) ->
    0 <= j < b_nbuckets b -> j <> i ->
    exists k k', engine_bucket b j = Ok k /\ engine_bucket b' j = Ok k' /\ each (fun v v' => v' = v \/ v' = f0) k k'.
  Proof.
    intros RW fuel es b w b' w' i j R Hn Hi U H Hj N. apply (compare_bucket _ i); auto.
    assert (fixed_bucket L i b) as F by (apply uses_fixed; auto; lia). apply reachable_shape in R. clear Hn Hi U Hj N.
    cut (faded i b b'); [intros (K & _); exact K|]. revert b w R F H. induction es as [|e es IH]; intros b w R F H; cbn [pen_events] in H.
    - apply Ok_inj in H. injection H as <- _. apply steady_faded, steady_plainly. repeat split.
    - apply obind_ok in H. destruct H as ([((a, b1), w1)|] & E1 & H); [|discriminate H]. pose proof (stroke_to_shape L _ _ _ _ _ _ _ R E1) as R1.
      apply (stroke_faded L i) in E1; [|exact R|exact F]. eapply faded_trans; [exact E1|]. eapply IH; [exact R1| |exact H]. destruct E1 as ((Nb & _) & Es). eapply fixed_plainly; eauto.
  Qed.
End Engine.

(** ** C30: after a reset no bucket counts as used *)
Section Used.
  Context {M : mixed} (L : mathlib M) {E : env M}.
  (** [b_minb], [b_maxb]: what mypaint_brush_get_min_smudge_bucket_used and
      mypaint_brush_get_max_smudge_bucket_used return *)
  Theorem C30_none_used : forall fuel (b : brush E) w e b' w', reachable L b -> b_reset b = true -> in_one_go L b e ->
    stroke_to L fuel b w e = Ok (Some (true, b', w')) -> 0 < b_nbuckets b -> b_minb b' = -1 /\ b_maxb b' = -1.
  Proof.
    intros fuel b w e b' w' Rb R G H Hn. apply reset_event in H; auto.
    destruct H as (t & e1 & b1 & dt & x & y & b2 & b3 & _ & Ek & Et & Ed & E3). injection E3 as <- _.
    pose proof (skip_fields L _ _ _ _ _ _ Ek) as Fk. pose proof (track_fields L _ _ _ _ _ _ _ Et) as Ft.
    destruct (reachable_shape L b Rb) as (_ & _ & _ & B). unfold bok in B.
    destruct (b_buckets b) as [mem|] eqn:Eb; cbn [buckets_ok] in B; [|lia]. destruct B as (_ & Lm & Rg & _).
    unfold do_reset in Ed. apply obind_ok in Ed. destruct Ed as (b4 & E4 & Ed).
    unfold brush_reset in E4. cbv zeta in E4. cbn [with_states with_skip with_reset b_buckets b_minb b_maxb] in E4.
    rewrite Ft, Fk in E4. cbn [with_skip with_rng b_buckets b_minb b_maxb] in E4. rewrite Eb in E4.
    apply obind_ok in Ed. destruct Ed as ((rr, g) & _ & Ed). cbv zeta in Ed. apply Ok_inj in Ed. subst b'.
    destruct (Z.eqb_spec (b_minb b) (-1)); cbn [negb] in E4.
    - apply Ok_inj in E4. subst b4. cbn. lia.
    - apply obind_ok in E4. destruct E4 as (mem' & Ec & E4). apply Ok_inj in E4. subst b4. split; reflexivity.
  Qed.
End Used.

(** *** Example: a smudging brush that uses bucket 1 of three; bucket 1 changes *)
Lemma toy_rounds : rounds_well toy_lib.
Proof.
  intros i v Hi (F & V). change (roundf_ toy_lib v : f32) with (froundf v). destruct (BoxProofs.froundf_floor v F) as (Fr & Vr); [rewrite V; apply IZR_le; exact Hi|].
  split; [exact Fr|]. rewrite Vr, V. f_equal. apply Zfloor_imp. rewrite plus_IZR. lra.
Qed.
Definition one_bucket (b : brush toy) (w : world toy) : bool :=
  (b_nbuckets b =? 3) && match get_base_value b (Z.of_nat SET_SMUDGE_BUCKET) with Ok v => feq v f1 && is_finite (v : f32) | _ => false end &&
  match is_constant b (Z.of_nat SET_SMUDGE_BUCKET) with Ok c => c | _ => false end &&
  match pen_events toy_lib 9 b w [pen 3 0 50 10; pen 4 0 50 10] with
  | Ok (Some (b', _)) => match engine_bucket b 1, engine_bucket b' 1 with Ok k, Ok k' => feq (bk_recent k : f32) (bk_recent k) && negb (feq (bk_recent k : f32) (bk_recent k')) | _, _ => false end
  | _ => false end.
Example C29_engine_case : exists (b b' : brush toy) w w' k k', reachable toy_lib b /\ b_nbuckets b = 3 /\ uses_bucket 1 b /\
  pen_events toy_lib 9 b w [pen 3 0 50 10; pen 4 0 50 10] = Ok (Some (b', w')) /\
  engine_bucket b 1 = Ok k /\ engine_bucket b' 1 = Ok k' /\ k <> k'.
Proof.
  destruct (after_ok 3 (smudging ++ [CStroke (pen 0 0 0 10)]) one_bucket ltac:(vm_compute; reflexivity)) as (b & w & Es & H). unfold one_bucket in H.
  apply andb_prop in H. destruct H as [H H4]. apply andb_prop in H. destruct H as [H H3]. apply andb_prop in H. destruct H as [H1 H2]. apply Z.eqb_eq in H1.
  destruct (pen_events toy_lib 9 b w _) as [[(b', w')|]| |] eqn:Ep; [|discriminate H4..]. destruct (engine_bucket b 1) as [k| |] eqn:Ek; [|discriminate H4..]. destruct (engine_bucket b' 1) as [k'| |] eqn:Ek'; [|discriminate H4..].
  exists b, b', w, w', k, k'. split; [eapply session_reachable; [|exact Es]; lia|]. split; [exact H1|]. split.
  - split; [|destruct (is_constant b _) as [c| |]; [rewrite H3; reflexivity|discriminate H3..]]. destruct (get_base_value b _) as [v| |]; [|discriminate H2..]. exists v. split; [reflexivity|].
    apply andb_prop in H2. destruct H2 as (Q & F). destruct f1_val as (V1 & F1). split; [exact F|]. rewrite feq_spec in Q by auto. rewrite V1 in Q. destruct (Req_bool_spec (b2r (v : f32)) 1) as [W|W]; [exact W|discriminate Q].
  - split; [exact Ep|]. split; [exact Ek|]. split; [exact Ek'|]. intros Q. rewrite <- Q in H4.
    apply andb_prop in H4. destruct H4 as (Q1 & Q2). rewrite Q1 in Q2. discriminate Q2.
Qed.
Print Assumptions C29_dab_other_buckets.
Print Assumptions C29_event_other_buckets.
Print Assumptions C29_events_other_buckets.
Print Assumptions C30_none_used.
Print Assumptions C29_engine_case.
