(** Every setting of a brush is a mapping with a history of edits; the calls of
    the brush that change settings extend those histories. *)
From Verif Require Import Base F32 Arith Color Mapping P_Mapping Settings Spectral Brush BrushProofs.
Local Open Scope Z_scope.

Section Hist.
  Context {M : mixed} (L : mathlib M) {E : env M}.
  Notation K := (sng M).
  Notation S := (car (sng M)).
  Notation brush := (brush E).

  Definition history (b : brush) (h : nat -> list (edit K)) : Prop :=
    length (b_settings b) = SETTINGS_COUNT /\
    forall i, (i < SETTINGS_COUNT)%nat -> exists m, nth_error (b_settings b) i = Some m /\ edited INPUTS_COUNT (h i) m.

  Lemma settings_history : forall b, settings_ok (b_settings b) -> exists h, history b h.
  Proof.
    intros b [Ln F]. cut (exists hs, Forall2 (fun m es => edited INPUTS_COUNT es m) (b_settings b) hs).
    - intros (hs & F2). exists (fun i => nth i hs []). split; [exact Ln|]. rewrite <- Ln. clear - F2.
      induction F2 as [|m es ms hs H F2 IH]; intros i Hi; [cbn in Hi; lia|].
      destruct i as [|i]; [exists m; auto|]. destruct (IH i) as (m' & E' & H'); [cbn in Hi; lia|]. exists m'. auto.
    - clear Ln. induction F as [|m ms (es & H) F (hs & IH)]; [exists []; constructor|exists (es :: hs); constructor; auto].
  Qed.

  Definition more (h : nat -> list (edit K)) (id : Z) (l : list (edit K)) : nat -> list (edit K) :=
    fun i => if Nat.eqb i (Z.to_nat id) then h i ++ l else h i.

  Lemma history_ext : forall b h h', (forall i, (i < SETTINGS_COUNT)%nat -> h i = h' i) -> history b h -> history b h'.
  Proof. intros b h h' Hh [Ln H]. split; auto. intros i Hi. rewrite <- Hh; auto. Qed.

  Definition brush_edit (b : brush) (id : Z) (e : edit K) : outcome brush :=
    match e with
    | SetBase v => set_base_value L b id v
    | SetN i n => set_mapping_n b id i n
    | SetPoint i k x y => set_mapping_point b id i k x y
    end.

  (** all but the settings and what is derived from them is the same *)
  Definition same_but_settings (b b' : brush) : Prop :=
    b' = with_speed (with_settings b (b_settings b')) (b_gamma b') (b_m b') (b_q b').
  Lemma sbs_refl : forall b, same_but_settings b b.
  Proof. intros []. reflexivity. Qed.
  Lemma sbs_trans : forall a b c, same_but_settings a b -> same_but_settings b c -> same_but_settings a c.
  Proof. intros a b c H1 H2. unfold same_but_settings in *. rewrite H2 at 1. rewrite H1 at 1. reflexivity. Qed.

  Lemma edit_ok : forall b h id e, history b h -> 0 <= id < Z.of_nat SETTINGS_COUNT ->
    legal INPUTS_COUNT (h (Z.to_nat id)) e ->
    exists b', brush_edit b id e = Ok b' /\ history b' (more h id [e]) /\ same_but_settings b b'.
  Proof.
    intros b h id e [Ln H] Hi Hl. destruct (H (Z.to_nat id)) as (m & Em & Hm); [lia|].
    destruct (proj2 (C22_edits_succeed_iff_legal K _ _ m e Hm) Hl) as (m' & A).
    assert (setting_of b id = Ok m) as Es.
    { unfold setting_of. destruct (Z.leb_spec 0 id); [|lia]. destruct (Z.ltb_spec id (Z.of_nat SETTINGS_COUNT)); [|lia]. cbn [andb]. rewrite Em. reflexivity. }
    assert (forall b' : brush, b_settings b' = upd (b_settings b) (Z.to_nat id) m' -> history b' (more h id [e])) as Hh.
    { intros b' Eb. split; [rewrite Eb, upd_length; auto|]. intros i Hi'. rewrite Eb, nth_error_upd' by (rewrite Ln; lia).
      unfold more. rewrite (Nat.eqb_sym i). destruct (Nat.eqb_spec (Z.to_nat id) i) as [<-|]; [|auto].
      exists m'. split; [reflexivity|]. unfold edited in *. rewrite ofold_app, Hm. cbn [obind ofold]. rewrite A. reflexivity. }
    destruct e as [v|i n|i k x y]; cbn [brush_edit apply_edit] in *.
    - unfold set_base_value. rewrite Es. cbn [obind]. eexists. split; [reflexivity|]. split; [|destruct b; reflexivity].
      apply Hh. injection A as <-. reflexivity.
    - unfold set_mapping_n. rewrite Es. cbn [obind]. rewrite A. cbn [obind]. eexists. split; [reflexivity|]. split; [|destruct b; reflexivity].
      apply Hh. reflexivity.
    - unfold set_mapping_point. rewrite Es. cbn [obind]. rewrite A. cbn [obind]. eexists. split; [reflexivity|]. split; [|destruct b; reflexivity].
      apply Hh. reflexivity.
  Qed.

  (** the other direction: an edit of the brush that succeeds was legal *)
  Lemma edit_inv : forall b h id e b', history b h -> brush_edit b id e = Ok b' ->
    0 <= id < Z.of_nat SETTINGS_COUNT /\ legal INPUTS_COUNT (h (Z.to_nat id)) e.
  Proof.
    intros b h id e b' [Ln H] A.
    assert (exists m m', setting_of b id = Ok m /\ apply_edit m e = Ok m') as (m & m' & Es & Ea).
    { destruct e as [v|i n|i k x y]; cbn [brush_edit] in A.
      - unfold set_base_value in A. apply obind_ok in A. destruct A as (m & Em & _). exists m, (mapping_set_base m v). auto.
      - unfold set_mapping_n in A. apply obind_ok in A. destruct A as (m & Em & A). apply obind_ok in A. destruct A as (m' & A & _). exists m, m'. auto.
      - unfold set_mapping_point in A. apply obind_ok in A. destruct A as (m & Em & A). apply obind_ok in A. destruct A as (m' & A & _). exists m, m'. auto. }
    unfold setting_of in Es. destruct (Z.leb_spec 0 id); cbn [andb] in Es; [|discriminate].
    destruct (Z.ltb_spec id (Z.of_nat SETTINGS_COUNT)); [|discriminate].
    split; [lia|]. destruct (H (Z.to_nat id)) as (m2 & Em & Hm); [lia|]. rewrite Em in Es. injection Es as ->.
    apply (C22_edits_succeed_iff_legal K _ _ m e Hm). eauto.
  Qed.

  (** what the getters of the brush say *)
  Lemma get_base_ok : forall b h id, history b h -> 0 <= id < Z.of_nat SETTINGS_COUNT ->
    get_base_value b id = Ok (last_base (h (Z.to_nat id))).
  Proof.
    intros b h id [Ln H] Hi. destruct (H (Z.to_nat id)) as (m & Em & Hm); [lia|]. unfold get_base_value, setting_of.
    destruct (Z.leb_spec 0 id); [|lia]. destruct (Z.ltb_spec id (Z.of_nat SETTINGS_COUNT)); [|lia]. cbn [andb]. rewrite Em. cbn [obind].
    apply edited_good in Hm. destruct Hm as (-> & _). reflexivity.
  Qed.
  Lemma get_n_ok : forall b h id input, history b h -> 0 <= id < Z.of_nat SETTINGS_COUNT -> 0 <= input < Z.of_nat INPUTS_COUNT ->
    get_mapping_n b id input = Ok (last_n (h (Z.to_nat id)) input).
  Proof.
    intros b h id input [Ln H] Hi Hj. destruct (H (Z.to_nat id)) as (m & Em & Hm); [lia|]. unfold get_mapping_n.
    destruct (Z.ltb_spec id 0); [lia|]. rewrite Em. apply (C22_constant_iff_no_points K _ _ m Hm). auto.
  Qed.
  Lemma get_point_ok : forall b h id input k x y, history b h -> 0 <= id < Z.of_nat SETTINGS_COUNT -> 0 <= input < Z.of_nat INPUTS_COUNT ->
    0 <= k < last_n (h (Z.to_nat id)) input -> last_point (h (Z.to_nat id)) input k = Some (x, y) ->
    get_mapping_point b id input k = Ok (x, y).
  Proof.
    intros b h id input k x y [Ln H] Hi Hj Hk Hp. destruct (H (Z.to_nat id)) as (m & Em & Hm); [lia|]. unfold get_mapping_point, setting_of.
    destruct (Z.leb_spec 0 id); [|lia]. destruct (Z.ltb_spec id (Z.of_nat SETTINGS_COUNT)); [|lia]. cbn [andb]. rewrite Em. cbn [obind].
    apply edited_good in Hm. destruct (control_ok K _ _ _ _ Hm Hj) as (p & E1 & _ & N & R & _ & _ & P).
    unfold mapping_get_point. rewrite E1. cbn [obind]. destruct (Z.leb_spec 0 k); [|lia]. destruct (Z.ltb_spec k 64); [|lia]. cbn [andb negb].
    rewrite N. destruct (Z.ltb_spec k (last_n (h (Z.to_nat id)) input)); [|lia]. cbn [negb].
    destruct (P k) as (P1 & P2); [lia|]. apply pt_some in Hp. rewrite Hp in P1, P2.
    rewrite (cell_ok K _ _ x), (cell_ok K _ _ y); auto; lia.
  Qed.
  Lemma constant_ok : forall b h id, history b h -> 0 <= id < Z.of_nat SETTINGS_COUNT ->
    is_constant b id = Ok true <-> forall input, 0 <= input < Z.of_nat INPUTS_COUNT -> last_n (h (Z.to_nat id)) input = 0.
  Proof.
    intros b h id [Ln H] Hi. destruct (H (Z.to_nat id)) as (m & Em & Hm); [lia|]. unfold is_constant, setting_of.
    destruct (Z.leb_spec 0 id); [|lia]. destruct (Z.ltb_spec id (Z.of_nat SETTINGS_COUNT)); [|lia]. cbn [andb]. rewrite Em. cbn [obind].
    rewrite <- (proj1 (C22_constant_iff_no_points K _ _ m Hm)). split; intros A; [injection A; auto|rewrite A; auto].
  Qed.

  (** *** what was set last, after more edits *)
  Lemma last_n_app : forall (a l : list (edit K)) j, (forall i n, In (SetN i n) l -> i <> j) -> last_n (a ++ l) j = last_n a j.
  Proof.
    intros a l j. induction l as [|e l IH] using rev_ind; intros H; [rewrite app_nil_r; auto|].
    rewrite app_assoc, last_n_snoc, IH by (intros; apply (H i n); apply in_or_app; auto).
    destruct e as [v|i n|i k x y]; auto. destruct (Z.eqb_spec i j); auto. exfalso. apply (H i n); auto. apply in_or_app. right. left. auto.
  Qed.
  Lemma last_n_set : forall (a l : list (edit K)) j n, (forall i n', In (SetN i n') l -> i <> j) -> last_n (a ++ SetN j n :: l) j = n.
  Proof.
    intros a l j n H. change (SetN j n :: l) with ([SetN j n] ++ l). rewrite app_assoc, last_n_app by auto.
    rewrite last_n_snoc, Z.eqb_refl. reflexivity.
  Qed.
  Lemma last_n_const : forall (a : list (edit K)) js n j, In j js -> last_n (a ++ map (fun i => SetN i n) js) j = n.
  Proof.
    intros a js n j. revert a. induction js as [|i js IH] using rev_ind; intros a H; [contradiction|].
    rewrite map_app, app_assoc. cbn [map]. rewrite last_n_snoc. destruct (Z.eqb_spec i j); auto.
    apply IH. apply in_app_or in H. destruct H as [H|[H|[]]]; [auto|congruence].
  Qed.

  (** *** from_defaults *)
  Lemma clear_inputs : forall id js b h, history b h -> 0 <= id < Z.of_nat SETTINGS_COUNT ->
    (forall j, In j js -> 0 <= j < Z.of_nat INPUTS_COUNT) ->
    exists b', ofold (fun b i => set_mapping_n b id i 0) js b = Ok b' /\
      history b' (more h id (map (fun i => SetN i 0) js)) /\ same_but_settings b b'.
  Proof.
    intros id js. induction js as [|j js IH]; intros b h H Hi Hj.
    - exists b. split; [reflexivity|]. split; [|apply sbs_refl]. eapply history_ext; [|exact H]. intros i _. unfold more. cbn [map].
      rewrite app_nil_r. destruct (Nat.eqb i (Z.to_nat id)); auto.
    - destruct (edit_ok b h id (SetN j 0) H Hi) as (b1 & E1 & H1 & F1). { split; [apply Hj; left; auto|auto]. }
      destruct (IH b1 _ H1 Hi) as (b2 & E2 & H2 & F2). { intros i Hi'. apply Hj. right. auto. }
      exists b2. cbn [ofold]. cbn [brush_edit] in E1. rewrite E1. cbn [obind]. split; [exact E2|]. split; [|eapply sbs_trans; eauto].
      eapply history_ext; [|exact H2]. intros i _. unfold more. destruct (Nat.eqb i (Z.to_nat id)); auto. cbn [map]. rewrite <- app_assoc. reflexivity.
  Qed.

  Definition cleared (id : Z) : list (edit K) :=
    map (fun i => SetN i 0) (zrange 0 INPUTS_COUNT) ++ [SetBase (default_of (M := M) id)].
  Lemma set_defaults : forall ids b h, history b h -> NoDup ids -> (forall j, In j ids -> 0 <= j < Z.of_nat SETTINGS_COUNT) ->
    exists b', ofold (fun b id => let* b := ofold (fun b i => set_mapping_n b id i 0) (zrange 0 INPUTS_COUNT) b in
                                  set_base_value L b id (default_of id)) ids b = Ok b' /\
      history b' (fun i => if existsb (Z.eqb (Z.of_nat i)) ids then h i ++ cleared (Z.of_nat i) else h i) /\ same_but_settings b b'.
  Proof.
    induction ids as [|id ids IH]; intros b h H Nd Hi.
    - exists b. split; [reflexivity|]. split; [|apply sbs_refl]. exact H.
    - assert (0 <= id < Z.of_nat SETTINGS_COUNT) as Hid by (apply Hi; left; auto).
      destruct (clear_inputs id (zrange 0 INPUTS_COUNT) b h H Hid) as (b1 & E1 & H1 & F1).
      { intros j Hj. apply in_zrange in Hj. lia. }
      destruct (edit_ok b1 _ id (SetBase (default_of id)) H1 Hid I) as (b2 & E2 & H2 & F2). cbn [brush_edit] in E2.
      inversion Nd as [|? ? N1 N2]; subst.
      destruct (IH b2 _ H2 N2) as (b3 & E3 & H3 & F3). { intros j Hj. apply Hi. right. auto. }
      exists b3. cbn [ofold]. rewrite E1. cbn [obind]. rewrite E2. cbn [obind]. split; [exact E3|]. split; [|eapply sbs_trans; [|exact F3]; eapply sbs_trans; eauto].
      eapply history_ext; [|exact H3]. intros i Hi'. cbn [existsb]. unfold more.
      destruct (Nat.eqb_spec i (Z.to_nat id)) as [->|Ne].
      + rewrite Z2Nat.id by lia. rewrite Z.eqb_refl. cbn [orb].
        replace (existsb (Z.eqb id) ids) with false; [unfold cleared; rewrite <- app_assoc; reflexivity|].
        symmetry. apply not_true_is_false. intros X. apply existsb_exists in X. destruct X as (z & X1 & X2). apply Z.eqb_eq in X2. subst z. auto.
      + destruct (Z.eqb_spec (Z.of_nat i) id); [lia|]. reflexivity.
  Qed.

  Definition OM : Z := Z.of_nat SET_OPAQUE_MULTIPLY.
  Definition PR : Z := Z.of_nat INP_PRESSURE.
  Lemma defaults_history : nle (nofZ 0 : S) (nofZ 1) = true -> forall b h, history b h ->
    exists b', from_defaults L b = Ok b' /\ same_but_settings b b' /\
      history b' (fun i => h i ++ cleared (Z.of_nat i) ++
        if Nat.eqb i (Z.to_nat OM) then [SetN PR 2; SetPoint PR 0 (nofZ 0) (nofZ 0); SetPoint PR 1 (nofZ 1) (nofZ 1)] else []).
  Proof.
    intros Hle b h H.
    destruct (set_defaults (zrange 0 SETTINGS_COUNT) b h H (NoDup_zrange _ _)) as (b1 & E1 & H1 & F1).
    { intros j Hj. apply in_zrange in Hj. lia. }
    assert (history b1 (fun i => h i ++ cleared (Z.of_nat i))) as H1'.
    { eapply history_ext; [|exact H1]. intros i Hi. cbv beta.
      replace (existsb (Z.eqb (Z.of_nat i)) (zrange 0 SETTINGS_COUNT)) with true; [reflexivity|].
      symmetry. apply existsb_exists. exists (Z.of_nat i). rewrite Z.eqb_refl. split; auto. apply in_zrange. lia. }
    clear H1. assert (0 <= OM < Z.of_nat SETTINGS_COUNT) as Ho by (vm_compute; split; congruence).
    assert (0 <= PR < Z.of_nat INPUTS_COUNT) as Hp by (vm_compute; split; congruence).
    destruct (edit_ok b1 _ OM (SetN PR 2) H1' Ho) as (b2 & E2 & H2 & F2). { split; [exact Hp|right; lia]. }
    destruct (edit_ok b2 _ OM (SetPoint PR 0 (nofZ 0) (nofZ 0)) H2 Ho) as (b3 & E3 & H3 & F3).
    { split; [exact Hp|]. unfold more. rewrite Nat.eqb_refl. rewrite last_n_set by (intros ? ? []). split; [lia|]. intros; lia. }
    destruct (edit_ok b3 _ OM (SetPoint PR 1 (nofZ 1) (nofZ 1)) H3 Ho) as (b4 & E4 & H4 & F4).
    { split; [exact Hp|]. unfold more. rewrite Nat.eqb_refl. split.
      - rewrite last_n_snoc, last_n_set by (intros ? ? []). lia.
      - intros _. exists (nofZ 0), (nofZ 0). split; [|exact Hle]. rewrite last_point_snoc. rewrite Z.eqb_refl. reflexivity. }
    exists b4. unfold from_defaults. rewrite E1. cbn [obind]. fold OM PR. cbn [brush_edit] in *. rewrite E2. cbn [obind]. rewrite E3. cbn [obind].
    split; [exact E4|]. split. { eapply sbs_trans; [|exact F4]. eapply sbs_trans; [|exact F3]. eapply sbs_trans; eauto. }
    eapply history_ext; [|exact H4]. intros i _. unfold more. destruct (Nat.eqb i (Z.to_nat OM)); rewrite <- ?app_assoc; [reflexivity|rewrite app_nil_r; reflexivity].
  Qed.
End Hist.
