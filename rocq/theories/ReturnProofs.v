(** A brush without smudging and colour dynamics whose curves are complete gets
    through every event (no assertion fails, nothing is undefined). *)
From Verif Require Import Base F32 Arith Color Mapping P_Mapping Settings Spectral Brush BrushProofs.
Local Open Scope Z_scope.

Section Returns.
  Context {M : mixed} (L : mathlib M) {E : env M}.
  Notation S := (car (sng M)).
  Notation brush := (brush E).
  Notation s z := (@nofZ (sng M) z).
  Notation d z := (@nofZ (dbl M) z).

  Context (H1 : exists z, to_i (wid (s 1)) = Ok z) (Hm1 : exists z, to_i (wid (s (-1))) = Ok z)
          (H11 : nmul (s 1) (s (-1)) = s (-1)) (Hmm : nmul (s (-1)) (s (-1)) = s 1)
          (HZ : forall v : S, neqb v (s 0) = true -> nlt (d 0) (wid v) = false)
          (HN : forall g, exists r, e_next E g = Ok r) (HD : forall sf x, exists r, e_draw E sf x = Ok r).

  Definition flip_ok (b : brush) : Prop := st b STATE_FLIP = s 1 \/ st b STATE_FLIP = s (-1).
  Definition evaluates (l : list (mapping (sng M))) : Prop :=
    forall i m, nth_error l i = Some m -> forall data, length data = INPUTS_COUNT -> exists r, mapping_calculate m data = Ok r.
  Definition off (b : brush) (i : nat) : Prop := constant b i = true /\ neqb (base b i) (s 0) = true.
  Definition plain (b : brush) : Prop :=
    shape b /\ evaluates (b_settings b) /\ flip_ok b /\
    (exists c, hsv_to_rgb M (base b SET_COLOR_H, base b SET_COLOR_S, base b SET_COLOR_V) = Ok c) /\
    Forall (off b) [SET_SMUDGE; SET_CHANGE_COLOR_H; SET_CHANGE_COLOR_HSV_S; SET_CHANGE_COLOR_V].
  Definition quiet (b : brush) : Prop :=
    Forall (fun i => neqb (val b i) (s 0) = true) [SET_SMUDGE; SET_CHANGE_COLOR_H; SET_CHANGE_COLOR_HSV_S; SET_CHANGE_COLOR_V].

  Lemma plain_same : forall b b' : brush, shape b' -> b_settings b' = b_settings b -> st b' STATE_FLIP = st b STATE_FLIP -> plain b -> plain b'.
  Proof.
    intros b b' Sh Es Ef (_ & A & B & C & D). split; [exact Sh|]. split; [rewrite Es; exact A|]. split; [unfold flip_ok; rewrite Ef; exact B|].
    unfold off, base, constant in *. rewrite !Es. split; [exact C|exact D].
  Qed.
  Lemma quiet_same : forall b b' : brush, b_values b' = b_values b -> quiet b -> quiet b'.
  Proof. intros b b' Ev H. unfold quiet, val in *. rewrite Ev. exact H. Qed.
  Lemma plain_df : forall b b' : brush, dab_frame b b' -> plain b -> plain b'.
  Proof.
    intros b b' F P. pose proof (shape_df _ _ F (proj1 P)) as Sh. destruct F as (Eb & Es & _).
    apply (plain_same b); auto; [rewrite Eb; reflexivity|]. unfold st. destruct P as ((Hs & _) & _). destruct (Es Hs) as [_ H]. apply H. vm_compute. lia.
  Qed.
  Lemma quiet_df : forall b b' : brush, dab_frame b b' -> quiet b -> quiet b'.
  Proof. intros b b' (Eb & _) H. apply (quiet_same b); auto. rewrite Eb. reflexivity. Qed.
  Lemma plain_set : forall (b : brush) i v, i <> STATE_FLIP -> plain b -> plain (set_st b i v).
  Proof. intros b i v H P. apply (plain_same b); auto; [apply shape_set; apply P|apply st_set_other; auto]. Qed.

  Lemma calc_ok : forall ms data, (forall i m, nth_error ms i = Some m -> exists r, mapping_calculate m data = Ok r) ->
    exists vs, calculate_all (M := M) ms data = Ok vs.
  Proof.
    induction ms as [|m0 ms IH]; intros data H; [exists []; reflexivity|]. cbn [calculate_all].
    destruct (H 0%nat m0 eq_refl) as (r & ->). cbn [obind]. destruct (IH data) as (vs & ->). { intros i m N. apply (H (Datatypes.S i) m N). }
    cbn [obind]. eauto.
  Qed.
  Lemma calc_nth : forall ms data vs i m, calculate_all (M := M) ms data = Ok vs -> nth_error ms i = Some m ->
    mapping_calculate m data = Ok (nth i vs (nofZ 0)).
  Proof.
    induction ms as [|m0 ms IH]; intros data vs i m H N; [destruct i; discriminate|]. cbn [calculate_all] in H.
    apply obind_ok in H. destruct H as (v & Ev & H). apply obind_ok in H. destruct H as (vs' & Evs & H). injection H as <-.
    destruct i as [|i]; cbn in N |- *; [injection N as ->; auto|eauto].
  Qed.

  (* the states an update does not touch *)
  Local Transparent step_pen step_filters step_inputs.
  Ltac keep := first [solve [apply at_other; [discriminate|keep]] | solve [apply at_approach; [discriminate|keep]]
                     | lazymatch goal with |- at_ _ _ (if ?c then _ else _) => destruct c; keep end | assumption].
  Lemma pen_flip : forall (b : brush) p, has_states b -> at_ STATE_FLIP (st b STATE_FLIP) (step_pen L b p).
  Proof. intros b p H. assert (at_ STATE_FLIP (st b STATE_FLIP) b) by (split; auto). revert H0. generalize (st b STATE_FLIP). intros v H0. unfold step_pen. repeat peel keep. keep. Qed.
  Lemma filters_flip : forall (b : brush) p, has_states b -> at_ STATE_FLIP (st b STATE_FLIP) (step_filters L b p).
  Proof. intros b p H. assert (at_ STATE_FLIP (st b STATE_FLIP) b) by (split; auto). revert H0. generalize (st b STATE_FLIP). intros v H0. unfold step_filters. repeat peel keep. keep. Qed.

  Lemma inputs_length : forall b : brush, length (step_inputs L b) = INPUTS_COUNT.
  Proof. reflexivity. Qed.
  Local Opaque step_pen step_filters step_inputs.

  Lemma update_returns : forall b p, plain b -> exists b', update_states L b p = Ok b' /\ plain b' /\ quiet b'.
  Proof.
    intros b p P. destruct P as (Sh & Ev & Fl & Co & Of).
    destruct (calc_ok (b_settings (step_pen L b p)) (step_inputs L (step_pen L b p))) as (vs & Evs).
    { rewrite (os_settings b) by apply step_pen_os. intros i m Hm. apply (Ev i m Hm). apply inputs_length. }
    assert (exists b', update_states L b p = Ok b') as (b' & U). { unfold update_states. cbv zeta. rewrite Evs. cbn [obind]. eauto. }
    exists b'. split; [exact U|]. pose proof (shape_update L b p b' Sh U) as Sh'. apply update_inv in U. destruct U as (vs' & Evs' & ->).
    pose proof (step_pen_os L b p) as O1. pose proof (pen_flip b p (proj1 Sh)) as F1.
    revert Evs' O1 F1 Sh'. clear Evs. generalize (step_inputs L (step_pen L b p)) as dat. generalize (step_pen L b p) as b1. intros b1 dat Evs' O1 (Hs1 & F1) Sh'.
    pose proof (step_filters_os L (with_values b1 vs') p) as O2. pose proof (filters_flip (with_values b1 vs') p Hs1) as (Hs2 & F2).
    revert O2 F2 Hs2 Sh'. generalize (step_filters L (with_values b1 vs') p) as b2. intros b2 (O2 & _) F2 Hs2 Sh'.
    assert (b_settings b2 = b_settings b1) as E2 by (rewrite O2; reflexivity). assert (b_values b2 = vs') as V2 by (rewrite O2; reflexivity).
    change (st (with_values b1 vs') STATE_FLIP) with (st b1 STATE_FLIP) in F2. clear O2 vs.
    split.
    - apply (plain_same b); [exact Sh'|rewrite E2; exact (os_settings _ _ O1)|rewrite F2; exact F1|split; [auto|]; split; [auto|]; split; auto].
    - assert (forall i, off b i -> neqb (nth i vs' (s 0)) (s 0) = true) as Q.
      { intros i (Ci & Zi). unfold constant, base in *. destruct (nth_error (b_settings b) i) as [m|] eqn:N.
        - pose proof (calc_nth _ _ _ _ _ Evs' N) as X. unfold mapping_calculate in X.
          unfold mapping_is_constant in Ci. rewrite Ci in X. injection X as <-. exact Zi.
        - apply nth_error_None in N. rewrite nth_overflow; [exact Zi|]. apply calculate_length in Evs'. rewrite Evs'. exact N. }
      unfold quiet, val. rewrite V2. eapply Forall_impl; [|exact Of]. exact Q.
  Qed.

  Lemma gauss_returns : forall g, exists r, rand_gauss (E := E) g = Ok r.
  Proof.
    intros g. unfold rand_gauss. destruct (HN g) as ((r1, g1) & ->). cbn [obind]. destruct (HN g1) as ((r2, g2) & ->). cbn [obind].
    destruct (HN g2) as ((r3, g3) & ->). cbn [obind]. destruct (HN g3) as ((r4, g4) & ->). cbn [obind]. eauto.
  Qed.
  Lemma position_returns : forall b, flip_ok b -> exists x y b', dab_position L b = Ok (x, y, b') /\ exists g, b' = with_rng b g.
  Proof.
    intros b F. unfold dab_position. cbv zeta. assert (exists z, to_i (wid (st b STATE_FLIP)) = Ok z) as (z & ->) by (destruct F as [-> | ->]; auto).
    cbn [obind]. destruct (truthy _).
    - destruct (gauss_returns (b_rng b)) as ((r1, g1) & ->). cbn [obind]. destruct (gauss_returns g1) as ((r2, g2) & ->). cbn [obind]. eauto 8.
    - exists (if truthy (val b SET_OFFSET_BY_SPEED) then nar (nadd (wid (nadd (st b STATE_ACTUAL_X) (fst (directional_offsets L b (expf_ L (base b SET_RADIUS_LOGARITHMIC)) z)))) (ndiv (nmul (wid (nmul (st b STATE_NORM_DX_SLOW) (val b SET_OFFSET_BY_SPEED))) (dec 1 10)) (wid (st b STATE_VIEWZOOM)))) else nadd (st b STATE_ACTUAL_X) (fst (directional_offsets L b (expf_ L (base b SET_RADIUS_LOGARITHMIC)) z))).
      eexists. exists b. split; [reflexivity|]. exists (b_rng b). destruct b. reflexivity.
  Qed.
  Lemma size_returns : forall (b : brush) o, exists r q b', dab_size L b o = Ok (r, q, b') /\ exists g, b' = with_rng b g.
  Proof.
    intros b o. unfold dab_size. cbv zeta. destruct (truthy _).
    - destruct (gauss_returns (b_rng b)) as ((r1, g1) & ->). cbn [obind]. eauto 8.
    - do 3 eexists. split; [reflexivity|]. exists (b_rng b). destruct b. reflexivity.
  Qed.
  Lemma not_truthy : forall v : S, neqb v (s 0) = true -> truthy v = false.
  Proof. intros v H. unfold truthy. rewrite H. reflexivity. Qed.
  Lemma color_returns : forall (b : brush) c l, quiet b -> exists c', dab_color L b c l = Ok c'.
  Proof.
    intros b c l Q. inversion Q as [|? ? _ Q1]; subst. inversion Q1 as [|? ? Qh Q2]; subst. inversion Q2 as [|? ? Qs Q3]; subst. inversion Q3 as [|? ? Qv _]; subst.
    unfold dab_color. cbv zeta. rewrite (not_truthy _ Qh), (not_truthy _ Qs), (not_truthy _ Qv). cbn [orb obind]. eauto.
  Qed.
  Lemma prepare_returns : forall b w l, plain b -> quiet b -> exists r b' w', prepare_and_draw_dab L b w l = Ok (r, b', w') /\ plain b' /\ quiet b'.
  Proof.
    intros b w l P Q. assert (exists r b' w', prepare_and_draw_dab L b w l = Ok (r, b', w')) as (r & b' & w' & R).
    2:{ exists r, b', w'. split; [exact R|]. apply prepare_frame in R. split; [eapply plain_df; eauto|eapply quiet_df; eauto]. }
    unfold prepare_and_draw_dab. cbv zeta. destruct (position_returns b) as (x & y & b1 & -> & g1 & ->); [apply P|]. cbn [obind].
    destruct (size_returns (with_rng b g1) (dab_opacity L b)) as (rd & q & b2 & -> & g2 & ->). cbn [obind].
    set (b2 := with_rng (with_rng b g1) g2).
    assert (plain b2 /\ quiet b2) as [P2 Q2]. { split; [apply (plain_same b); auto; apply P|apply (quiet_same b); auto]. }
    clearbody b2. destruct P2 as (_ & _ & _ & (c & Ec) & Of). rewrite Ec. cbn [obind]. inversion Of as [|? ? (Cs & _) _]; subst. inversion Q2 as [|? ? Qs _]; subst.
    rewrite (not_truthy _ Qs), Cs. cbn [orb negb andb]. rewrite andb_false_r. cbn [obind]. rewrite (HZ _ Qs). cbn [obind].
    destruct (color_returns b2 c l Q2) as (((cr & cg) & cb) & ->). cbn [obind]. destruct (anti_alias _ _ _) as [rd' hd']. destruct (snap_pixel L x y rd' (val b2 SET_SNAP_TO_PIXEL)) as [[x' y'] rd''].
    match goal with |- context [e_draw E ?a ?x] => destruct (HD a x) as ((pn & sf) & ->) end. cbn [obind]. eauto.
  Qed.
  Lemma flip_flip : forall b, has_states b -> flip_ok b -> flip_ok (set_st b STATE_FLIP (nmul (st b STATE_FLIP) (s (-1)))).
  Proof. intros b H [F|F]; unfold flip_ok; rewrite st_set_same, F by (auto; vm_compute; lia); auto. Qed.

  Lemma count_plain : forall (b : brush) x y t n b', plain b -> count_dabs_to L b x y t = (n, b') -> plain b'.
  Proof. intros b x y t n b' P H. unfold count_dabs_to in H. injection H as _ <-. destruct (neqb _ _); [apply plain_set; [discriminate|]|]; auto. Qed.
  Lemma one_dab_returns : forall g p, plain (p_brush p) -> exists p', one_dab L g p = Ok p' /\ plain (p_brush p').
  Proof.
    intros g p P. unfold one_dab. cbv zeta. match goal with |- context [let '(_, _) := ?e in _] => destruct e as [ddab moved] end.
    match goal with |- context [update_states L _ ?p] => destruct (update_returns _ p P) as (b1 & -> & P1 & Q1) end. cbn [obind].
    set (b2 := set_st b1 STATE_FLIP (nmul (st b1 STATE_FLIP) (nofZ (-1)))).
    assert (plain b2 /\ quiet b2) as [P2 Q2].
    { split; [|exact Q1]. destruct P1 as (Sh & A & B & C & D). split; [apply shape_set; auto|]. split; [exact A|]. split; [apply flip_flip; [apply Sh|exact B]|]. split; [exact C|exact D]. }
    clearbody b2. destruct (prepare_returns b2 (p_world p) (g_linear g) P2 Q2) as (r & b3 & w3 & -> & P3 & Q3). cbn [obind].
    destruct (HN (b_rng b3)) as ((rr, rg) & ->). cbn [obind]. destruct (count_dabs_to L _ _ _ _) as [todo b4] eqn:Ec.
    eexists. split; [reflexivity|]. cbn [p_brush]. eapply count_plain; [|exact Ec]. apply (plain_same b3); auto; apply P3.
  Qed.
  Lemma dabs_returns : forall n g p, plain (p_brush p) -> exists r, dabs L n g p = Ok r /\ forall p', r = Some p' -> plain (p_brush p').
  Proof.
    induction n as [|n IH]; intros g p P; cbn [dabs]; destruct (pending p); try (eexists; split; [reflexivity|]; congruence).
    destruct (one_dab_returns g p P) as (p1 & -> & P1). cbn [obind]. apply IH. exact P1.
  Qed.
  Lemma split_plain : forall (b : brush) pt pr dp dt a b', plain b -> stroke_split b pt pr dp dt = (a, b') -> plain b'.
  Proof.
    intros b pt pr dp dt a b' H E0. unfold stroke_split in E0. cbv zeta in E0. revert E0.
    generalize (match pt with Some v => v | None => negb (nlt (nofZ 0) (b_idling b) || neqb (b_painting b) (nofZ 0)) end).
    intros [|] E0; [injection E0 as _ <-; exact H|]. match type of E0 with (if ?c then _ else _) = _ => destruct c end; injection E0 as _ <-; exact H.
  Qed.
  Definition kept (r : option (bool * brush * world E)) : Prop := forall a b w, r = Some (a, b, w) -> plain b.
  Lemma paint_to_returns : forall n (b : brush) w g dt, plain b -> exists r, paint_to L n b w g dt = Ok r /\ kept r.
  Proof.
    intros n b w g dt P. unfold paint_to, paint_dabs. cbv zeta. destruct (count_dabs_to _ _ _ _ _) as [todo b1] eqn:Ec.
    pose proof (count_plain _ _ _ _ _ _ P Ec) as P1. destruct (dabs_returns n g (mkProgress b1 w None dt (st b STATE_PARTIAL_DABS) todo []) P1) as (r & -> & Hr).
    cbn [obind]. destruct r as [p|]; [|eexists; split; [reflexivity|]; intros ? ? ?; discriminate]. specialize (Hr p eq_refl).
    unfold paint_rest. destruct (update_returns (p_brush p) (last_step p g) Hr) as (b2 & -> & P2 & _). cbn [obind]. cbv zeta.
    destruct (stroke_split _ _ _ _ _) as [a b3] eqn:Es. cbn [obind]. eexists. split; [reflexivity|]. intros a' b' w' H. injection H as _ <- _.
    eapply split_plain; [|exact Es]. apply plain_set; [discriminate|exact P2].
  Qed.
  Lemma track_returns : forall (b : brush) x y dt, exists r, track L b x y dt = Ok r.
  Proof.
    intros b x y dt. unfold track. cbv zeta. destruct (truthy _); [|cbn [obind]; eauto]. destruct (nlt _ _); [|cbn [obind]; eauto].
    cbn [with_skip b_rng].
    destruct (gauss_returns (b_rng b)) as ((r1, g1) & ->). cbn [obind]. destruct (gauss_returns g1) as ((r2, g2) & ->). cbn [obind]. eauto.
  Qed.
  Lemma reset_flip : forall b b' : brush, brush_reset b = Ok b' -> st b' STATE_FLIP = s (-1).
  Proof.
    intros b b' H. unfold brush_reset in H. cbv zeta in H. cbn [with_states with_skip b_buckets b_minb b_maxb] in H. destruct (b_buckets b) as [mem|].
    - destruct (negb _); [|apply Ok_inj in H; subst b'; reflexivity]. apply obind_ok in H. destruct H as (mem' & _ & H). apply Ok_inj in H. subst b'. reflexivity.
    - apply Ok_inj in H. subst b'. reflexivity.
  Qed.
  Lemma do_reset_returns : forall (b : brush) x y pr, plain b -> exists b', do_reset b x y pr = Ok b' /\ plain b'.
  Proof.
    intros b x y pr P. destruct (reset_ok (with_reset b false)) as (b1 & E1 & A & B & C & D); [apply P|].
    pose proof (reset_flip _ _ E1) as F. unfold do_reset. rewrite E1. cbn [obind]. destruct (HN (b_rng b1)) as ((r, g) & ->). cbn [obind]. cbv zeta.
    eexists. split; [reflexivity|].
    assert (plain (with_random (with_rng b1 g) r)) as P1.
    { destruct P as (Sh & P1 & P2 & P3 & P4). split.
      - split; [exact A|]. cbn. rewrite C, D. cbn. destruct Sh as (_ & H1' & H2' & _). auto.
      - unfold off, constant, base in *. cbn. rewrite C. cbn. split; [exact P1|]. split; [right; exact F|]. split; [exact P3|exact P4]. }
    revert P1. generalize (with_random (with_rng b1 g) r). intros b2 P2.
    repeat (apply plain_set; [discriminate|]). exact P2.
  Qed.
  Lemma stroke_rest_returns : forall n (b : brush) w t e, plain b -> exists r, stroke_rest L n b w t e = Ok r /\ kept r.
  Proof.
    intros n b w t e P. unfold stroke_rest. destruct (skip_input _ _ _ _ _) as [b1 go] eqn:E1. apply skip_fields in E1.
    assert (plain b1) as P1 by (rewrite E1; exact P). clear E1. destruct go as [dt|]; [|eexists; split; [reflexivity|]; intros ? ? ? H; injection H as _ <- _; exact P1].
    destruct (track_returns b1 (ev_x e) (ev_y e) dt) as (((x, y), b2) & E2). rewrite E2. cbn [obind]. apply track_fields in E2.
    assert (plain b2) as P2 by (rewrite E2; exact P1). clear E2. match goal with |- context [if ?c then _ else _] => destruct c end.
    - destruct (do_reset_returns b2 x y (ev_pressure e) P2) as (b3 & -> & P3). cbn [obind]. eexists. split; [reflexivity|]. intros ? ? ? H; injection H as _ <- _; exact P3.
    - apply paint_to_returns; auto.
  Qed.
End Returns.
