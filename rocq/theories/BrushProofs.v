(** Frame facts about the brush model: which fields each function leaves alone,
    and the invariant that all array accesses are in range. *)
From Verif Require Import Base F32 Arith Color Mapping P_Mapping Settings Spectral Brush.
Local Open Scope Z_scope.

Lemma Ok_inj : forall {A : Type} (a b : A), Ok a = Ok b -> a = b.
Proof. intros A a b H. injection H. auto. Qed.

Lemma pass_inv : forall {A : Type} (P : A -> Prop) e (f : A -> A), P e -> (forall x, P x -> P (f x)) -> P (pass e f).
Proof. intros. unfold pass. auto. Qed.
Lemma pass_any : forall {A B : Type} (P : B -> Prop) (e : A) (f : A -> B), (forall x, P (f x)) -> P (pass e f).
Proof. intros. unfold pass. auto. Qed.
Lemma pass_eq : forall {A B : Type} (P : B -> Prop) (e : A) (f : A -> B), (forall x, x = e -> P (f x)) -> P (pass e f).
Proof. intros. unfold pass. auto. Qed.

(** one assignment of a long sequence: the property is shown to hold after it
    (by [tac]) and is all that is remembered *)
Ltac peel tac :=
  lazymatch goal with
  | |- ?P (pass ?e ?f) =>
      let T := type of e in
      lazymatch T with
      | brush _ =>
          apply (pass_inv P e f); [tac|];
          let y := fresh "b" in let H := fresh "H" in intros y H; cbv beta
      | _ => apply (pass_any P e f); let y := fresh "v" in intros y; cbv beta
      end
  end.

Section Frame.
  Context {M : mixed} (L : mathlib M) {E : env M}.
  Notation S := (car (sng M)).
  Notation brush := (brush E).

  (** *** states *)
  Definition has_states (b : brush) : Prop := length (b_states b) = STATES_COUNT.

  Lemma st_set_same : forall (b : brush) i v, has_states b -> (i < STATES_COUNT)%nat -> st (set_st b i v) i = v.
  Proof. intros b i v H Hi. unfold st, set_st, with_states. cbn [b_states]. apply nth_upd_eq. rewrite H. auto. Qed.
  Lemma st_set_other : forall (b : brush) i j v, i <> j -> st (set_st b i v) j = st b j.
  Proof. intros b i j v H. unfold st, set_st, with_states. cbn [b_states]. apply nth_upd_neq. auto. Qed.
  Lemma has_set : forall (b : brush) i v, has_states b -> has_states (set_st b i v).
  Proof. intros b i v H. unfold has_states, set_st, with_states. cbn [b_states]. rewrite upd_length. auto. Qed.

  (** state [i] has the value [v] *)
  Definition at_ (i : nat) (v : S) (b : brush) : Prop := has_states b /\ st b i = v.
  Lemma at_same : forall i v b, has_states b -> (i < STATES_COUNT)%nat -> at_ i v (set_st b i v).
  Proof. intros. split; [apply has_set; auto|apply st_set_same; auto]. Qed.
  Lemma at_other : forall i j v u b, j <> i -> at_ i v b -> at_ i v (set_st b j u).
  Proof. intros i j v u b Hij [H <-]. split; [apply has_set; auto|apply st_set_other; auto]. Qed.

  (** everything but the states is as in [b0] *)
  Definition only_states (b0 b : brush) : Prop := b = with_states b0 (b_states b) /\ (has_states b0 -> has_states b).
  Lemma os_refl : forall b, only_states b b.
  Proof. intros []. split; auto. Qed.
  Lemma os_set : forall b0 b i v, only_states b0 b -> only_states b0 (set_st b i v).
  Proof. intros b0 b i v [H K]. split; [|intros; apply has_set; auto]. rewrite H at 1. destruct b0, b. reflexivity. Qed.
  Lemma os_approach : forall b0 b i v f, only_states b0 b -> only_states b0 (approach b i v f).
  Proof. intros. apply os_set. auto. Qed.
  Lemma at_approach : forall i j v u f b, j <> i -> at_ i v b -> at_ i v (approach b j u f).
  Proof. intros. apply at_other; auto. Qed.

  Ltac os := first [apply os_set; os | apply os_approach; os
                   | match goal with |- only_states _ (if ?c then _ else _) => destruct c; os end | assumption].
  Lemma step_pen_os : forall (b : brush) p, only_states b (step_pen L b p).
  Proof.
    intros b p. assert (only_states b b) by apply os_refl. unfold step_pen.
    repeat peel os. os.
  Qed.
  Lemma step_filters_os : forall (b : brush) p, only_states b (step_filters L b p).
  Proof.
    intros b p. assert (only_states b b) by apply os_refl. unfold step_filters.
    repeat peel os. os.
  Qed.

  Strategy opaque [step_pen step_filters step_inputs].
  Opaque step_pen step_filters step_inputs.

  (** *** drawing a dab *)
  Definition with_dab (b : brush) (l : list S) (m : option (list S)) (lo hi : Z) (g : e_rng E) : brush :=
    mkBrush (b_painting b) (b_idling b) l m (b_nbuckets b) lo hi (b_random b)
      (b_skip b) (b_skip_x b) (b_skip_y b) (b_skipped b) g (b_settings b) (b_values b)
      (b_gamma b) (b_m b) (b_q b) (b_reset b).

  (** states outside the smudge colour (5 to 13) are the same *)
  Definition same_states (l l' : list S) : Prop :=
    length l = STATES_COUNT ->
    length l' = STATES_COUNT /\ forall i z, (i < 5 \/ 13 < i)%nat -> nth i l' z = nth i l z.
  Lemma same_refl : forall l, same_states l l.
  Proof. intros l H. auto. Qed.
  Lemma same_trans : forall a b c, same_states a b -> same_states b c -> same_states a c.
  Proof.
    intros a b c H K La. destruct (H La) as [Lb Hb]. destruct (K Lb) as [Lc Hc]. split; auto.
    intros. rewrite Hc, Hb; auto.
  Qed.

  (** what holds of the buckets: their memory has nine cells each, the used
      range is a range of buckets *)
  Definition index_ok (n : Z) : Prop := forall (v : S) i,
    to_i (wid (if nlt (nofZ (n - 1)) v then nofZ (n - 1) else if nlt v (nofZ 0) then nofZ 0 else v)) = Ok i -> 0 <= i < n.
  Definition buckets_ok (n : Z) (m : option (list S)) (lo hi : Z) : Prop :=
    match m with
    | None => n = 0
    | Some mem => 0 < n /\ Z.of_nat (length mem) = n * 9 /\
        ((lo = -1 /\ hi = -1) \/ (0 <= lo <= hi /\ hi < n)) /\ index_ok n
    end.
  Definition bok (b : brush) : Prop := buckets_ok (b_nbuckets b) (b_buckets b) (b_minb b) (b_maxb b).

  Definition dab_frame (b b' : brush) : Prop :=
    b' = with_dab b (b_states b') (b_buckets b') (b_minb b') (b_maxb b') (b_rng b') /\
    same_states (b_states b) (b_states b') /\ (bok b -> bok b').
  Lemma df_refl : forall b, dab_frame b b.
  Proof. intros []. split; [reflexivity|]. split; [apply same_refl|auto]. Qed.
  Lemma df_trans : forall a b c, dab_frame a b -> dab_frame b c -> dab_frame a c.
  Proof.
    intros a b c (E1 & S1 & B1) (E2 & S2 & B2). split; [|split; [eapply same_trans; eauto|auto]].
    rewrite E2 at 1. rewrite E1 at 1. reflexivity.
  Qed.
  Lemma df_rng : forall (b : brush) g, dab_frame b (with_rng b g).
  Proof. intros [] g. split; [reflexivity|]. split; [apply same_refl|auto]. Qed.

  Lemma write9_length : forall (l : list S) off k l', write9 l off k = Ok l' ->
    0 <= off /\ off + 9 <= Z.of_nat (length l) /\ length l' = length l /\
    l' = firstn (Z.to_nat off) l ++ bucket_list k ++ skipn (Z.to_nat off + 9) l.
  Proof.
    intros l off k l' H. unfold write9 in H. destruct ((0 <=? off) && (off + 9 <=? Z.of_nat (length l))) eqn:C; [|discriminate].
    apply andb_prop in C. destruct C as [C1 C2]. apply Z.leb_le in C1. apply Z.leb_le in C2.
    inversion H; subst. repeat split; auto.
    destruct k as [[[[r g] bl] a] [[[pr pg] pb] pa] rc]. rewrite !app_length, firstn_length, skipn_length.
    change (length (bucket_list _)) with 9%nat. lia.
  Qed.
  Lemma bucket_list_length : forall k : bucket M, length (bucket_list k) = 9%nat.
  Proof. intros [[[[r g] bl] a] [[[pr pg] pb] pa] rc]. reflexivity. Qed.

  Lemma fetch_frame : forall (b : brush) pl b', fetch_bucket L b = Ok (pl, b') -> dab_frame b b'.
  Proof.
    intros b pl b' H. unfold fetch_bucket in H. destruct (b_buckets b) as [mem|] eqn:Eb.
    2:{ inversion H; subst. apply df_refl. }
    destruct (b_nbuckets b =? 0). { inversion H; subst. apply df_refl. }
    apply obind_ok in H. destruct H as (i & Ei & H). apply obind_ok in H. destruct H as (off & Eo & H).
    inversion H; subst. split; [destruct b; reflexivity|]. split; [apply same_refl|].
    unfold bok. rewrite Eb. cbn [b_buckets b_nbuckets b_minb b_maxb with_buckets buckets_ok].
    intros (P & Ln & R & X). split; [exact P|]. split; [exact Ln|]. split; [|exact X]. right. apply X in Ei.
    destruct (Z.eqb_spec (b_minb b) (-1)); cbn [orb]; [|destruct (Z.ltb_spec i (b_minb b))]; destruct (Z.ltb_spec (b_maxb b) i); lia.
  Qed.
  Lemma write_place_frame : forall (b : brush) pl k b', write_place b pl k = Ok b' -> dab_frame b b'.
  Proof.
    intros b [|off] k b' H; unfold write_place in H.
    - apply obind_ok in H. destruct H as (l & El & H). inversion H; subst. apply write9_length in El.
      destruct El as (_ & Lo & Ll & ->). split; [destruct b; reflexivity|]. split; [|unfold bok; auto].
      intros Ln. cbn [b_states with_states]. rewrite Ll. split; auto.
      change (Z.to_nat (Z.of_nat STATE_SMUDGE_RA)) with 5%nat. intros i z Hi.
      assert (length (firstn 5 (b_states b)) = 5%nat) as L5.
      { rewrite firstn_length. rewrite Ln. reflexivity. }
      destruct Hi.
      + rewrite app_nth1 by (rewrite L5; auto).
        rewrite <- (firstn_skipn 5 (b_states b)) at 2. rewrite app_nth1 by (rewrite L5; auto). reflexivity.
      + rewrite app_nth2, L5 by (rewrite L5; lia). rewrite app_nth2, bucket_list_length by (rewrite bucket_list_length; lia).
        rewrite <- (firstn_skipn (5 + 9) (b_states b)) at 2.
        assert (length (firstn (5 + 9) (b_states b)) = 14%nat) as L14 by (rewrite firstn_length, Ln; reflexivity).
        rewrite (app_nth2 (firstn (5 + 9) (b_states b))) by (rewrite L14; lia). rewrite L14. f_equal. lia.
    - destruct (b_buckets b) as [mem|] eqn:Eb; [|discriminate]. apply obind_ok in H. destruct H as (l & El & H). inversion H; subst.
      apply write9_length in El. destruct El as (_ & _ & Ll & _). split; [destruct b; reflexivity|]. split; [apply same_refl|].
      unfold bok. rewrite Eb. cbn [b_buckets b_nbuckets b_minb b_maxb with_buckets buckets_ok]. rewrite Ll. auto.
  Qed.

  Lemma prepare_frame : forall (b : brush) w lin r b' w', prepare_and_draw_dab L b w lin = Ok (r, b', w') -> dab_frame b b'.
  Proof.
    intros b w lin r b' w' H. unfold prepare_and_draw_dab in H. cbv zeta in H.
    apply obind_ok in H. destruct H as (((x, y), b1) & E1 & H).
    assert (F1 : dab_frame b b1).
    { unfold dab_position in E1. cbv zeta in E1. apply obind_ok in E1. destruct E1 as (fl & _ & E1).
      destruct (truthy (val b SET_OFFSET_BY_RANDOM)).
      - apply obind_ok in E1. destruct E1 as ((r1, g1) & _ & E1). apply obind_ok in E1. destruct E1 as ((r2, g2) & _ & E1).
        inversion E1. apply df_rng.
      - injection E1 as _ _ <-. apply df_refl. }
    apply obind_ok in H. destruct H as (((rad, op), b2) & E2 & H).
    assert (F2 : dab_frame b b2).
    { eapply df_trans; [exact F1|]. unfold dab_size in E2. cbv zeta in E2. destruct (truthy (val b1 SET_RADIUS_BY_RANDOM)).
      - apply obind_ok in E2. destruct E2 as ((r1, g1) & _ & E2). injection E2 as _ _ <-. apply df_rng.
      - injection E2 as _ _ <-. apply df_refl. }
    clear E1 F1 E2. apply obind_ok in H. destruct H as (c & _ & H).
    apply obind_ok in H. destruct H as (((early, b3), w3) & E3 & H).
    assert (F3 : dab_frame b b3).
    { eapply df_trans; [exact F2|]. clear H. match type of E3 with (if ?c then _ else _) = _ => destruct c end.
      - apply obind_ok in E3. destruct E3 as ((pl, b4) & Ef & E3). apply obind_ok in E3. destruct E3 as (px & _ & E3).
        apply obind_ok in E3. destruct E3 as (py & _ & E3). apply obind_ok in E3. destruct E3 as (k & _ & E3).
        apply obind_ok in E3. destruct E3 as (((ea, k'), w4) & _ & E3). apply obind_ok in E3. destruct E3 as (b5 & Ew & E3).
        injection E3 as _ <- _. eapply df_trans; [eapply fetch_frame; eauto|eapply write_place_frame; eauto].
      - injection E3 as _ <- _. apply df_refl. }
    clear F2 E3. destruct early. { injection H as _ <- _. exact F3. }
    apply obind_ok in H. destruct H as ((((al, c'), b4), w4) & E4 & H).
    assert (F4 : dab_frame b b4).
    { eapply df_trans; [exact F3|]. clear H. match type of E4 with (if ?c then _ else _) = _ => destruct c end.
      - apply obind_ok in E4. destruct E4 as ((pl, b5) & Ef & E4). apply obind_ok in E4. destruct E4 as (k & _ & E4).
        destruct (apply_smudge _ _ _ _ _ _ _) as ((al', c''), w''). injection E4 as _ _ <- _. eapply fetch_frame; eauto.
      - injection E4 as _ _ <- _. apply df_refl. }
    clear F3 E4. apply obind_ok in H. destruct H as (c'' & _ & H).
    destruct (anti_alias _ _ _) as [ra ha]. destruct (snap_pixel _ _ _ _ _) as [[xx yy] rr]. destruct c'' as [[cr cg] cb].
    apply obind_ok in H. destruct H as ((pt, sf) & _ & H). injection H as _ <- _. exact F4.
  Qed.

  (** *** the invariant *)
  Definition settings_ok (l : list (mapping (sng M))) : Prop :=
    length l = SETTINGS_COUNT /\ Forall (fun m => exists es, edited INPUTS_COUNT es m) l.
  Definition shape (b : brush) : Prop :=
    has_states b /\ settings_ok (b_settings b) /\ length (b_values b) = SETTINGS_COUNT /\ bok b.

  Lemma shape_set : forall (b : brush) i v, shape b -> shape (set_st b i v).
  Proof. intros b i v (H & H1). split; [apply has_set; auto|exact H1]. Qed.
  Lemma shape_os : forall (b : brush) b', only_states b b' -> shape b -> shape b'.
  Proof. intros b b' [E1 E2] (H & H1). split; [auto|]. rewrite E1. exact H1. Qed.
  Lemma shape_df : forall (b : brush) b', dab_frame b b' -> shape b -> shape b'.
  Proof.
    intros b b' (E1 & E2 & E3) (H & H1 & H2 & H3). split; [|split; [|split]].
    - apply E2. exact H.
    - rewrite E1. exact H1.
    - rewrite E1. exact H2.
    - auto.
  Qed.

  Lemma clear_ok : forall (l : list S) from n, 0 <= from -> 0 <= n -> from + n <= Z.of_nat (length l) ->
    exists l', clear l from n = Ok l' /\ length l' = length l /\
      forall i, (i < length l)%nat -> nth i l' (nofZ 0) = if (from <=? Z.of_nat i) && (Z.of_nat i <? from + n) then nofZ 0 else nth i l (nofZ 0).
  Proof.
    intros l from n H1 H2 H3. unfold clear. rewrite (proj2 (Z.leb_le _ _) H1), (proj2 (Z.leb_le _ _) H2), (proj2 (Z.leb_le _ _) H3). cbn [andb].
    eexists. split; [reflexivity|].
    assert (length (firstn (Z.to_nat from) l) = Z.to_nat from) as Lf by (rewrite firstn_length; lia).
    split. { rewrite !app_length, Lf, repeat_length, skipn_length. lia. }
    intros i Hi. destruct (Z.leb_spec from (Z.of_nat i)); cbn [andb].
    - rewrite app_nth2, Lf by (rewrite Lf; lia). destruct (Z.ltb_spec (Z.of_nat i) (from + n)).
      + rewrite app_nth1 by (rewrite repeat_length; lia). apply nth_repeat.
      + rewrite app_nth2, repeat_length by (rewrite repeat_length; lia).
        rewrite <- (firstn_skipn (Z.to_nat (from + n)) l) at 2.
        assert (length (firstn (Z.to_nat (from + n)) l) = Z.to_nat (from + n)) as Lg by (rewrite firstn_length; lia).
        rewrite (app_nth2 (firstn _ _)), Lg by (rewrite Lg; lia). f_equal. lia.
    - rewrite app_nth1 by (rewrite Lf; lia). rewrite <- (firstn_skipn (Z.to_nat from) l) at 2.
      rewrite app_nth1 by (rewrite Lf; lia). reflexivity.
  Qed.

  Lemma reset_ok : forall b, bok b -> exists b', brush_reset b = Ok b' /\ has_states b' /\ bok b' /\
    b_settings b' = b_settings b /\ b_values b' = b_values b.
  Proof.
    intros b B. unfold brush_reset. cbv zeta. cbn [with_states with_skip b_buckets b_minb b_maxb].
    unfold bok in B. destruct (b_buckets b) as [mem|] eqn:Eb; cbn [buckets_ok] in B.
    - destruct B as (P & Ln & R & X). destruct (Z.eqb_spec (b_minb b) (-1)); cbn [negb].
      + eexists. split; [reflexivity|]. split; [reflexivity|]. split; [|auto].
        unfold bok. cbn [with_states with_skip b_buckets b_nbuckets b_minb b_maxb]. rewrite Eb. cbn [buckets_ok]. auto.
      + destruct R as [R|R]; [lia|].
        destruct (clear_ok mem (b_minb b) ((b_maxb b - b_minb b + 1) * 9)) as (mem' & Ec & Lc & _); [lia..|].
        rewrite Ec. cbn [obind]. eexists. split; [reflexivity|]. split; [reflexivity|]. split; [|auto].
        unfold bok. cbn [with_buckets with_states with_skip b_buckets b_nbuckets b_minb b_maxb buckets_ok]. rewrite Lc. auto 10.
    - eexists. split; [reflexivity|]. split; [reflexivity|]. split; [|auto]. unfold bok. cbn [with_states with_skip b_buckets b_nbuckets b_minb b_maxb]. rewrite Eb. exact B.
  Qed.

  Lemma calculate_length : forall ms data vs, calculate_all (M := M) ms data = Ok vs -> length vs = length ms.
  Proof.
    induction ms as [|m ms IH]; intros data vs H; cbn in H; [inversion H; reflexivity|].
    apply obind_ok in H. destruct H as (v & _ & H). apply obind_ok in H. destruct H as (vs' & Ev & H). inversion H; subst.
    cbn. f_equal. eauto.
  Qed.
  Lemma os_settings : forall b0 b : brush, only_states b0 b -> b_settings b = b_settings b0.
  Proof. intros b0 b [H _]. rewrite H. reflexivity. Qed.
  Lemma update_inv : forall (b : brush) p b', update_states L b p = Ok b' ->
    exists vs, calculate_all (b_settings b) (step_inputs L (step_pen L b p)) = Ok vs /\ b' = step_filters L (with_values (step_pen L b p) vs) p.
  Proof.
    intros b p b' H. unfold update_states in H. cbv zeta in H. apply obind_ok in H. destruct H as (vs & Ev & H). apply Ok_inj in H. subst b'.
    exists vs. split; [|reflexivity]. rewrite (os_settings _ _ (step_pen_os b p)) in Ev. exact Ev.
  Qed.
  Lemma shape_update : forall (b : brush) p b', shape b -> update_states L b p = Ok b' -> shape b'.
  Proof.
    intros b p b' H U. apply update_inv in U. destruct U as (vs & Ev & ->). eapply shape_os; [apply step_filters_os|].
    apply calculate_length in Ev.
    pose proof (shape_os _ _ (step_pen_os b p) H) as H1. clear -H H1 Ev. revert H1. generalize (step_pen L b p). intros b1 (A & B & C & D).
    split; [exact A|]. split; [exact B|]. split; [|exact D]. cbn [with_values b_values]. rewrite Ev. apply H.
  Qed.
  Lemma count_os : forall (b : brush) x y t n b', count_dabs_to L b x y t = (n, b') -> only_states b b'.
  Proof. intros b x y t n b' H. unfold count_dabs_to in H. injection H as _ <-. destruct (neqb _ _); [apply os_set|]; apply os_refl. Qed.
  Lemma one_dab_shape : forall g p p', shape (p_brush p) -> one_dab L g p = Ok p' -> shape (p_brush p').
  Proof.
    intros g p p' H O. unfold one_dab in O. cbv zeta in O.
    match type of O with (let '(_, _) := ?e in _) = _ => destruct e as [ddab moved] end.
    apply obind_ok in O. destruct O as (b1 & E1 & O). apply shape_update in E1; auto.
    apply obind_ok in O. destruct O as (((pn, b2), w2) & E2 & O). apply prepare_frame in E2.
    apply shape_df in E2; [|apply shape_set; auto].
    apply obind_ok in O. destruct O as ((r, rg) & _ & O).
    match type of O with context [count_dabs_to ?a ?b ?c ?d ?e] => destruct (count_dabs_to a b c d e) as [todo b3] eqn:E3 end.
    injection O as <-. cbn [p_brush]. apply count_os in E3. apply shape_os in E3; auto.
  Qed.
  Lemma dabs_shape : forall fuel g p p', shape (p_brush p) -> dabs L fuel g p = Ok (Some p') -> shape (p_brush p').
  Proof.
    induction fuel as [|fuel IH]; intros g p p' H O; cbn [dabs] in O; destruct (pending p); try discriminate.
    - injection O as <-. auto.
    - apply obind_ok in O. destruct O as (p1 & E1 & O). eapply IH; [|exact O]. eapply one_dab_shape; eauto.
    - injection O as <-. auto.
  Qed.
  Lemma shape_times : forall (b : brush) x y, shape b -> shape (with_times b x y).
  Proof. intros b x y H. exact H. Qed.
  Lemma split_shape : forall (b : brush) pt pr dp dt a b', shape b -> stroke_split b pt pr dp dt = (a, b') -> shape b'.
  Proof.
    intros b pt pr dp dt a b' H E0. unfold stroke_split in E0. cbv zeta in E0. revert E0.
    generalize (match pt with Some v => v | None => negb (nlt (nofZ 0) (b_idling b) || neqb (b_painting b) (nofZ 0)) end).
    intros [|] E0; [injection E0 as _ <-; exact H|]. match type of E0 with (if ?c then _ else _) = _ => destruct c end; injection E0 as _ <-; exact H.
  Qed.
  Lemma paint_to_shape : forall fuel (b : brush) w g dt a b' w', shape b -> paint_to L fuel b w g dt = Ok (Some (a, b', w')) -> shape b'.
  Proof.
    intros fuel b w g dt a b' w' H O. unfold paint_to in O. apply obind_ok in O. destruct O as ([p|] & E1 & O); [|discriminate].
    assert (shape (p_brush p)) as Hp.
    { unfold paint_dabs in E1. cbv zeta in E1. destruct (count_dabs_to _ _ _ _ _) as [todo b1] eqn:Ec. apply dabs_shape in E1; auto.
      cbn [p_brush]. apply count_os in Ec. eapply shape_os; eauto. }
    apply obind_ok in O. destruct O as ((a', b1) & E2 & O). injection O as <- <- _.
    unfold paint_rest in E2. apply obind_ok in E2. destruct E2 as (b2 & E2 & E3). cbv zeta in E3. injection E3 as E3.
    apply split_shape in E3; auto. apply shape_set. eapply shape_update; eauto.
  Qed.
  Lemma skip_fields : forall (b : brush) x y dt b' go, skip_input L b x y dt = (b', go) ->
    b' = with_skip b (b_skip b') (b_skip_x b') (b_skip_y b') (b_skipped b').
  Proof.
    intros b x y dt b' go H. unfold skip_input in H. cbv zeta in H. destruct (nlt _ _).
    - match type of H with (if ?c then _ else _) = _ => destruct c end; injection H as <- _; reflexivity.
    - injection H as <- _. destruct b. reflexivity.
  Qed.
  Lemma track_fields : forall (b : brush) x y dt x' y' b', track L b x y dt = Ok (x', y', b') ->
    b' = with_rng (with_skip b (b_skip b') (b_skip_x b') (b_skip_y b') (b_skipped b')) (b_rng b').
  Proof.
    intros b x y dt x' y' b' H. unfold track in H. cbv zeta in H. apply obind_ok in H. destruct H as (((x1, y1), b1) & E1 & H).
    injection H as _ _ <-. destruct (truthy _); [|injection E1 as _ _ <-; destruct b; reflexivity].
    destruct (nlt _ _); [|injection E1 as _ _ <-; destruct b; reflexivity].
    apply obind_ok in E1. destruct E1 as ((r1, g1) & _ & E1). apply obind_ok in E1. destruct E1 as ((r2, g2) & _ & E1).
    injection E1 as _ _ <-. reflexivity.
  Qed.
  Lemma do_reset_shape : forall (b : brush) x y pr b', shape b -> do_reset b x y pr = Ok b' -> shape b'.
  Proof.
    intros b x y pr b' H O. unfold do_reset in O. apply obind_ok in O. destruct O as (b1 & E1 & O).
    destruct (reset_ok (with_reset b false)) as (b2 & E2 & A & B & C & D); [apply H|]. rewrite E1 in E2. injection E2 as <-.
    apply obind_ok in O. destruct O as ((r, g) & _ & O). cbv zeta in O. injection O as <-.
    repeat apply shape_set. split; [exact A|]. cbn. rewrite C, D. cbn. destruct H as (_ & H1 & H2 & _). auto.
  Qed.
  Lemma stroke_rest_shape : forall fuel (b : brush) w t e a b' w', shape b -> stroke_rest L fuel b w t e = Ok (Some (a, b', w')) -> shape b'.
  Proof.
    intros fuel b w t e a b' w' H O. unfold stroke_rest in O. destruct (skip_input _ _ _ _ _) as [b1 go] eqn:E1. apply skip_fields in E1.
    assert (shape b1) as H1 by (rewrite E1; exact H). clear E1. destruct go as [dt|]; [|injection O as _ <- _; auto].
    apply obind_ok in O. destruct O as (((x, y), b2) & E2 & O). apply track_fields in E2.
    assert (shape b2) as H2 by (rewrite E2; exact H1). clear E2. match type of O with (if ?c then _ else _) = _ => destruct c end.
    - apply obind_ok in O. destruct O as (b3 & E3 & O). injection O as _ <- _. eapply do_reset_shape; eauto.
    - eapply paint_to_shape; eauto.
  Qed.
  Lemma stroke_to_shape : forall fuel (b : brush) w e a b' w', shape b -> stroke_to L fuel b w e = Ok (Some (a, b', w')) -> shape b'.
  Proof.
    intros fuel b w e a b' w' H O. unfold stroke_to in O. apply obind_ok in O. destruct O as ((t, e1) & _ & O).
    match type of O with (if ?c then _ else _) = _ => destruct c end; [|eapply stroke_rest_shape; eauto].
    apply obind_ok in O. destruct O as ((t', e') & _ & O). apply obind_ok in O. destruct O as (r & E1 & O).
    destruct r as [((a1, b1), w1)|]; [|discriminate]. apply stroke_rest_shape in E1; auto. eapply stroke_rest_shape; eauto.
  Qed.

  Lemma setting_of_ok : forall (b : brush) id m, settings_ok (b_settings b) -> setting_of b id = Ok m ->
    0 <= id < Z.of_nat SETTINGS_COUNT /\ nth_error (b_settings b) (Z.to_nat id) = Some m /\ exists es, edited INPUTS_COUNT es m.
  Proof.
    intros b id m [Ln F] H. unfold setting_of in H. destruct ((0 <=? id) && (id <? Z.of_nat SETTINGS_COUNT)) eqn:C; [|discriminate].
    apply andb_prop in C. destruct C as [C1 C2]. apply Z.leb_le in C1. apply Z.ltb_lt in C2.
    destruct (nth_error _ _) as [m'|] eqn:N; [|discriminate]. injection H as ->. repeat split; auto.
    rewrite Forall_forall in F. apply F. eapply nth_error_In; eauto.
  Qed.
  Lemma settings_upd : forall l i m, settings_ok l -> (exists es, edited INPUTS_COUNT es m) -> settings_ok (upd l i m).
  Proof.
    intros l i m [Ln F] Hm. split; [rewrite upd_length; auto|]. clear Ln. revert i.
    induction F as [|a l Ha F IH]; intros [|i]; cbn [upd]; constructor; auto.
  Qed.
  Lemma edited_more : forall es m e m', edited (K := sng M) INPUTS_COUNT es m -> apply_edit m e = Ok m' -> exists es', edited (K := sng M) INPUTS_COUNT es' m'.
  Proof.
    intros es m e m' H A. exists (es ++ [e]). unfold edited in *. revert H. generalize (mapping_new (sng M) INPUTS_COUNT).
    induction es as [|a es IH]; intros m0 H; cbn [ofold app] in *; [injection H as ->; cbn [ofold]; rewrite A; reflexivity|].
    apply obind_ok in H. destruct H as (m1 & E1 & H). rewrite E1. cbn [obind]. auto.
  Qed.

  Lemma shape_speed : forall b, shape b -> shape (speed_mapping L b).
  Proof. intros b H. exact H. Qed.
  Lemma call_shape : forall fuel (b : brush) w c b' w', shape b -> run_call L fuel b w c = Ok (Some (b', w')) -> shape b'.
  Proof.
    intros fuel b w c b' w' H O. destruct c as [e| | |id v|id i n|id i k x y|i v|i k]; cbn [run_call] in O.
    - apply obind_ok in O. destruct O as ([((a, b1), w1)|] & E1 & O); [|discriminate]. cbn in O. injection O as <- _. eapply stroke_to_shape; eauto.
    - injection O as <- _. exact H.
    - injection O as <- _. exact H.
    - apply obind_ok in O. destruct O as (b1 & E1 & O). injection O as <- _. unfold set_base_value in E1.
      apply obind_ok in E1. destruct E1 as (m & Em & E1). injection E1 as <-. apply shape_speed.
      apply setting_of_ok in Em; [|apply H]. destruct Em as (_ & _ & es & Em). destruct H as (A & B & C & D). split; [exact A|].
      split; [|split; [exact C|exact D]]. cbn. apply settings_upd; auto. apply (edited_more es m (SetBase v)); auto.
    - apply obind_ok in O. destruct O as (b1 & E1 & O). injection O as <- _. unfold set_mapping_n in E1.
      apply obind_ok in E1. destruct E1 as (m & Em & E1). apply obind_ok in E1. destruct E1 as (m' & Em' & E1). injection E1 as <-.
      apply setting_of_ok in Em; [|apply H]. destruct Em as (_ & _ & es & Em). destruct H as (A & B & C & D). split; [exact A|].
      split; [|split; [exact C|exact D]]. cbn. apply settings_upd; auto. apply (edited_more es m (SetN i n)); auto.
    - apply obind_ok in O. destruct O as (b1 & E1 & O). injection O as <- _. unfold set_mapping_point in E1.
      apply obind_ok in E1. destruct E1 as (m & Em & E1). apply obind_ok in E1. destruct E1 as (m' & Em' & E1). injection E1 as <-.
      apply setting_of_ok in Em; [|apply H]. destruct Em as (_ & _ & es & Em). destruct H as (A & B & C & D). split; [exact A|].
      split; [|split; [exact C|exact D]]. cbn. apply settings_upd; auto. apply (edited_more es m (SetPoint i k x y)); auto.
    - apply obind_ok in O. destruct O as (b1 & E1 & O). injection O as <- _. unfold set_state in E1.
      match type of E1 with (if ?c then _ else _) = _ => destruct c end; [|discriminate]. injection E1 as <-. apply shape_set. auto.
    - apply obind_ok in O. destruct O as ((r, b1) & E1 & O). injection O as <- _. unfold set_bucket_state in E1.
      destruct (i <? b_nbuckets b); [|injection E1 as _ <-; auto]. destruct (b_buckets b) as [mem|] eqn:Eb; [|discriminate].
      apply obind_ok in E1. destruct E1 as (mem' & Ew & E1). injection E1 as _ <-. apply write9_length in Ew. destruct Ew as (_ & _ & Lw & _).
      destruct H as (A & B & C & D). split; [exact A|]. split; [exact B|]. split; [exact C|].
      unfold bok in *. rewrite Eb in D. cbn in *. rewrite Lw. exact D.
  Qed.

  (** *** brushes that a program can have *)
  Inductive reachable : brush -> Prop :=
  | r_new : forall n g jv jb lo hi b, brush_new L n g jv jb lo hi = Ok b -> (0 < n -> index_ok n) -> reachable b
  | r_call : forall b fuel w c b' w', reachable b -> run_call L fuel b w c = Ok (Some (b', w')) -> reachable b'.

  Lemma reachable_shape : forall b, reachable b -> shape b.
  Proof.
    intros b R. induction R as [n g jv jb lo hi b H X|]; [|eapply call_shape; eauto].
    unfold brush_new in H. apply obind_ok in H. destruct H as (mem & Em & H). cbv zeta in H. apply obind_ok in H. destruct H as (b1 & E1 & H).
    injection H as <-. apply shape_speed. apply shape_times.
    assert (settings_ok (repeat (mapping_new (sng M) INPUTS_COUNT) SETTINGS_COUNT)) as S0.
    { split; [apply repeat_length|]. apply Forall_forall. intros m Hm. apply repeat_spec in Hm. subst m. exists []. reflexivity. }
    assert (length (firstn SETTINGS_COUNT (jv ++ repeat (nofZ 0) SETTINGS_COUNT)) = SETTINGS_COUNT) as L0.
    { rewrite firstn_length, app_length, repeat_length. unfold SETTINGS_COUNT. lia. }
    match type of E1 with brush_reset ?b = _ => destruct (reset_ok b) as (b2 & E2 & A & B & C & D) end.
    { unfold bok. cbn [b_buckets b_nbuckets b_minb b_maxb]. destruct (Z.ltb_spec 0 n) as [P|P].
      - apply obind_ok in Em. destruct Em as (k & Ek & Em). injection Em as <-. unfold int_val in Ek. destruct (in_int (n * 9)); [|discriminate].
        injection Ek as <-. cbn [buckets_ok]. split; [auto|]. split; [|split; [lia|auto]].
        rewrite firstn_length, app_length, repeat_length. lia.
      - injection Em as <-. reflexivity. }
    rewrite E1 in E2. injection E2 as <-. split; [exact A|]. rewrite C, D. split; [exact S0|]. split; [exact L0|exact B].
  Qed.
End Frame.
