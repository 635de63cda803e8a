(** The brush engine in exact arithmetic, run twice: the second time with every
    event moved by a whole number of pixels.  The two brushes stay alike. *)
From Verif Require Import Base F32 Arith Color Mapping Settings Spectral Brush BrushProofs ShiftOffsets.
From Coq Require Import Reals Lra.
From Flocq Require Import Core.Core.
Local Open Scope Z_scope.

(** *** Dynamics that do not depend on the place *)
(** no curve over the two inputs that tell the place on the canvas *)
Definition placeless (m : mapping (sng mixR)) : Prop :=
  mp_used m = 0 \/ forall i c, i = INP_GRIDMAP_X \/ i = INP_GRIDMAP_Y -> nth_error (mp_points m) i = Some c -> cp_n c = 0.

(** two lists that differ at some places only *)
Lemma sum_alike : forall (ps : list (control (sng mixR))) (l1 l2 : list (sng mixR)) r, length l1 = length l2 ->
  (forall i c, nth_error ps i = Some c -> cp_n c <> 0 -> nth_error l1 i = nth_error l2 i) -> sum_inputs ps l1 r = sum_inputs ps l2 r.
Proof.
  induction ps as [|p ps IH]; intros l1 l2 r Ln Sm; [reflexivity|]. destruct l1 as [|x l1], l2 as [|y l2]; [reflexivity|discriminate Ln|discriminate Ln|]. injection Ln as Ln.
  cbn [sum_inputs]. assert (forall i c, nth_error ps i = Some c -> cp_n c <> 0 -> nth_error l1 i = nth_error l2 i) as Sm' by (intros i c N H; exact (Sm (S i) c N H)).
  destruct (Z.eqb_spec (cp_n p) 0); [apply IH; [exact Ln|exact Sm']|]. pose proof (Sm 0%nat p eq_refl n) as K. cbn in K. injection K as <-. destruct (curve_value p x); [cbn [obind]; apply IH; [exact Ln|exact Sm']|reflexivity|reflexivity].
Qed.

Section Shift.
  Context (L : mathlib mixR) {E : env mixR} (a c : Z).
  Notation brush := (brush E).
  Notation step_ := (step mixR).

  Definition is_x (i : nat) : bool := (i =? STATE_X)%nat || (i =? STATE_ACTUAL_X)%nat.
  Definition is_y (i : nat) : bool := (i =? STATE_Y)%nat || (i =? STATE_ACTUAL_Y)%nat.
  Definition is_grid (i : nat) : bool := (i =? STATE_GRIDMAP_X)%nat || (i =? STATE_GRIDMAP_Y)%nat.
  (** how state [i] of the second brush goes with that of the first *)
  Definition goes (i : nat) (u v : R) : Prop :=
    if is_x i then v = (u + IZR a)%R else if is_y i then v = (u + IZR c)%R else if is_grid i then True else v = u.

  (** the same brush, elsewhere *)
  Record alike (b1 b2 : brush) : Prop := {
    al_has1 : has_states b1; al_has2 : has_states b2;
    al_st : forall i, goes i (st b1 i) (st b2 i);
    al_form : b2 = with_skip (with_states b1 (b_states b2)) (b_skip b1) (b_skip_x b2) (b_skip_y b2) (b_skipped b1);
    al_skip : (b_skip b1 <= / 1000)%R \/ (b_skip_x b2 = b_skip_x b1 + IZR a /\ b_skip_y b2 = b_skip_y b1 + IZR c)%R }.

  Lemma alike_set : forall b1 b2 i (u v : R), alike b1 b2 -> goes i u v -> (i < STATES_COUNT)%nat -> alike (set_st b1 i u) (set_st b2 i v).
  Proof.
    intros b1 b2 i u v [H1 H2 S F K] G Hi. split.
    - apply has_set; exact H1. - apply has_set; exact H2.
    - intros j. destruct (Nat.eq_dec i j) as [<-|N]; [rewrite !st_set_same by auto; exact G|rewrite !st_set_other by auto; apply S].
    - rewrite F. reflexivity.
    - exact K.
  Qed.
  Lemma alike_same : forall b1 b2 i, alike b1 b2 -> is_x i = false -> is_y i = false -> is_grid i = false -> st b2 i = st b1 i.
  Proof. intros b1 b2 i [_ _ S _ _] X Y G. specialize (S i). unfold goes in S. rewrite X, Y, G in S. exact S. Qed.
  Lemma alike_val : forall b1 b2 i, alike b1 b2 -> val b2 i = val b1 i.
  Proof. intros b1 b2 i [_ _ _ F _]. rewrite F. reflexivity. Qed.
  Lemma alike_base : forall b1 b2 i, alike b1 b2 -> base b2 i = base b1 i.
  Proof. intros b1 b2 i [_ _ _ F _]. rewrite F. reflexivity. Qed.
  Lemma alike_x : forall b1 b2, alike b1 b2 -> (st b2 STATE_X = st b1 STATE_X + IZR a)%R.
  Proof. intros b1 b2 [_ _ S _ _]. exact (S STATE_X). Qed.
  Lemma alike_y : forall b1 b2, alike b1 b2 -> (st b2 STATE_Y = st b1 STATE_Y + IZR c)%R.
  Proof. intros b1 b2 [_ _ S _ _]. exact (S STATE_Y). Qed.
  Lemma alike_ax : forall b1 b2, alike b1 b2 -> (st b2 STATE_ACTUAL_X = st b1 STATE_ACTUAL_X + IZR a)%R.
  Proof. intros b1 b2 [_ _ S _ _]. exact (S STATE_ACTUAL_X). Qed.
  Lemma alike_ay : forall b1 b2, alike b1 b2 -> (st b2 STATE_ACTUAL_Y = st b1 STATE_ACTUAL_Y + IZR c)%R.
  Proof. intros b1 b2 [_ _ S _ _]. exact (S STATE_ACTUAL_Y). Qed.

  Lemma pass_same : forall {A : Type} (e1 e2 : A) (f1 f2 : A -> brush), e2 = e1 -> (forall v, alike (f1 v) (f2 v)) -> alike (pass e1 f1) (pass e2 f2).
  Proof. intros A e1 e2 f1 f2 -> H. apply H. Qed.
  Lemma pass_alike : forall (e1 e2 : brush) (f1 f2 : brush -> brush), alike e1 e2 -> (forall c1 c2, alike c1 c2 -> alike (f1 c1) (f2 c2)) -> alike (pass e1 f1) (pass e2 f2).
  Proof. intros e1 e2 f1 f2 H K. apply K. exact H. Qed.
  Lemma pass_any : forall {A : Type} (e1 e2 : A) (f1 f2 : A -> brush), (forall u v, alike (f1 u) (f2 v)) -> alike (pass e1 f1) (pass e2 f2).
  Proof. intros A e1 e2 f1 f2 H. apply H. Qed.

  (* what the first brush says instead of the second *)
  Ltac same H := rewrite ?(fun i => alike_val _ _ i H), ?(fun i => alike_base _ _ i H);
    repeat match type of H with alike _ ?y => match goal with |- context [st y ?i] => rewrite (alike_same _ _ i H eq_refl eq_refl eq_refl) end end.
  Ltac go := lazymatch goal with
    | H : alike ?x ?y |- alike (pass ?e1 _) (pass ?e2 _) =>
        lazymatch type of e1 with
        | Brush.brush _ => apply pass_alike; [|clear H; let c1 := fresh "c" in let c2 := fresh "c" in let K := fresh "K" in intros c1 c2 K; cbv beta]
        | _ => apply pass_same; [same H; reflexivity|let v := fresh "v" in intros v; cbv beta]
        end end.
  (* an assignment to an ordinary state *)
  Ltac put := lazymatch goal with
    | H : alike ?x ?y |- alike (set_st ?x ?i _) (set_st ?y ?i _) => apply alike_set; [exact H|unfold goes; cbn [is_x is_y is_grid]; change (is_x i) with false; change (is_y i) with false; change (is_grid i) with false; cbv iota; same H; reflexivity|vm_compute; lia] end.

  Local Transparent step_pen step_filters step_inputs.
  Lemma grid_set : forall b1 b2 i (u v : R), alike b1 b2 -> is_grid i = true -> is_x i = false -> is_y i = false -> (i < STATES_COUNT)%nat -> alike (set_st b1 i u) (set_st b2 i v).
  Proof. intros b1 b2 i u v H G X Y Hi. apply alike_set; auto. unfold goes. rewrite X, Y, G. exact Logic.I. Qed.
  (* the grid coordinates are set, on one side perhaps twice *)
  Lemma grid_if : forall b1 b2 i (u1 u2 v1 v2 : R) (p q : bool), alike b1 b2 -> is_grid i = true -> is_x i = false -> is_y i = false -> (i < STATES_COUNT)%nat ->
    alike (if p then set_st b1 i u1 else b1) (if q then set_st b2 i u2 else b2).
  Proof.
    intros b1 b2 i u1 u2 v1 v2 p q H G X Y Hi. destruct H as [H1 H2 S F K]. split.
    - destruct p; auto using has_set. - destruct q; auto using has_set.
    - intros j. destruct (Nat.eq_dec i j) as [<-|N]; [unfold goes; rewrite X, Y, G; exact Logic.I|]. specialize (S j).
      assert (st (if p then set_st b1 i u1 else b1) j = st b1 j) as -> by (destruct p; [apply st_set_other; auto|reflexivity]).
      assert (st (if q then set_st b2 i u2 else b2) j = st b2 j) as -> by (destruct q; [apply st_set_other; auto|reflexivity]). exact S.
    - destruct p, q; rewrite F; reflexivity.
    - destruct p, q; exact K.
  Qed.

  Lemma pen_alike : forall b1 b2 (p : step_), alike b1 b2 -> alike (step_pen L b1 p) (step_pen L b2 p).
  Proof.
    intros b1 b2 p H. unfold step_pen.
    go. { apply alike_set; [exact H| |vm_compute; lia]. change (st b2 STATE_X + sp_dx p = st b1 STATE_X + sp_dx p + IZR a)%R. rewrite (alike_x _ _ H). lra. }
    go. { apply alike_set; [exact K| |vm_compute; lia]. change (st c1 STATE_Y + sp_dy p = st c0 STATE_Y + sp_dy p + IZR c)%R. rewrite (alike_y _ _ K). lra. }
    do 6 (go; [put|]). go. go; [put|]. do 2 (apply pass_any; intros ? ?). do 3 go.
    go; [apply grid_set; auto; vm_compute; lia|]. go; [apply grid_set; auto; vm_compute; lia|].
    go; [apply grid_if; auto; vm_compute; lia|]. go; [apply grid_if; auto; vm_compute; lia|].
    go; [put|]. go. { same K. destruct (nle _ _); [put|exact K]. }
    do 4 go. destruct (_ && _); [|destruct (_ && _); [put|exact K]].
    apply alike_set; [put|reflexivity|vm_compute; lia].
  Qed.

  Lemma filters_alike : forall b1 b2 (p : step_), alike b1 b2 -> alike (step_filters L b1 p) (step_filters L b2 p).
  Proof.
    intros b1 b2 p H. unfold step_filters, norm_dx, norm_dy, norm_dist, approach. do 6 go. do 3 (go; [put|]). go.
    go. { apply alike_set; [exact K| |vm_compute; lia]. match goal with |- goes _ (nadd _ (nmul _ ?f)) _ => change (st c5 STATE_ACTUAL_X + (st c5 STATE_X - st c5 STATE_ACTUAL_X) * f = st c4 STATE_ACTUAL_X + (st c4 STATE_X - st c4 STATE_ACTUAL_X) * f + IZR a)%R end.
      rewrite (alike_x _ _ K), (alike_ax _ _ K). ring. }
    go. { apply alike_set; [exact K| |vm_compute; lia]. match goal with |- goes _ (nadd _ (nmul _ ?f)) _ => change (st c7 STATE_ACTUAL_Y + (st c7 STATE_Y - st c7 STATE_ACTUAL_Y) * f = st c6 STATE_ACTUAL_Y + (st c6 STATE_Y - st c6 STATE_ACTUAL_Y) * f + IZR c)%R end.
      rewrite (alike_y _ _ K), (alike_ay _ _ K). ring. }
    do 2 (go; [put|]). do 3 go. do 2 (go; [put|]). do 5 go. do 2 (go; [put|]). do 3 go. do 3 (go; [put|]). do 3 go.
    go. { destruct (nle _ _ && _); [put|]. destruct (nle _ _); put. }
    go; [put|]. go. { same K. destruct (nlt _ _); [put|exact K]. } go. { same K. destruct (nlt _ _); [put|exact K]. } go; [put|]. put.
  Qed.

  Lemma alike_random : forall b1 b2, alike b1 b2 -> b_random b2 = b_random b1 /\ b_gamma b2 = b_gamma b1 /\ b_m b2 = b_m b1 /\ b_q b2 = b_q b1 /\
    b_settings b2 = b_settings b1 /\ b_rng b2 = b_rng b1 /\ b_reset b2 = b_reset b1 /\ b_skip b2 = b_skip b1 /\ b_skipped b2 = b_skipped b1 /\ b_painting b2 = b_painting b1 /\ b_idling b2 = b_idling b1.
  Proof. intros b1 b2 [_ _ _ F _]. rewrite F. repeat split; reflexivity. Qed.

  Lemma inputs_alike : forall b1 b2, alike b1 b2 -> length (step_inputs L b1) = length (step_inputs L b2) /\
    forall i, i <> INP_GRIDMAP_X -> i <> INP_GRIDMAP_Y -> nth_error (step_inputs L b1) i = nth_error (step_inputs L b2) i.
  Proof.
    intros b1 b2 H. unfold step_inputs. cbv zeta. destruct (alike_random _ _ H) as (-> & -> & -> & -> & _).
    split; [reflexivity|]. same H. intros i N1 N2. do 18 (destruct i as [|i]; [first [reflexivity|destruct (N1 eq_refl)|destruct (N2 eq_refl)]|]). reflexivity.
  Qed.
  Local Opaque step_pen step_filters step_inputs.

  Lemma values_alike : forall ms b1 b2, alike b1 b2 -> Forall placeless ms -> calculate_all ms (step_inputs L b1) = calculate_all ms (step_inputs L b2).
  Proof.
    intros ms b1 b2 H P. destruct (inputs_alike _ _ H) as (Ln & Sm). induction P as [|m ms Pm P IH]; [reflexivity|]. cbn [calculate_all].
    assert (mapping_calculate m (step_inputs L b1) = mapping_calculate m (step_inputs L b2)) as ->; [|destruct (mapping_calculate m _); [cbn [obind]; rewrite IH; reflexivity|reflexivity|reflexivity]].
    unfold mapping_calculate. destruct (Z.eqb_spec (mp_used m) 0) as [U|U]; [reflexivity|]. destruct Pm as [Pm|Pm]; [destruct (U Pm)|].
    apply sum_alike; [exact Ln|]. intros i k N Nz. apply Sm; intros ->; apply Nz; [apply (Pm INP_GRIDMAP_X k (or_introl eq_refl) N)|apply (Pm INP_GRIDMAP_Y k (or_intror eq_refl) N)].
  Qed.

  Definition still (b : brush) : Prop := Forall placeless (b_settings b) /\ forall m, nth_error (b_settings b) SET_SMUDGE = Some m -> mp_used m = 0 /\ (mp_base m = 0%R :> R).
  Definition dry (b : brush) : Prop := (val b SET_SMUDGE = 0%R :> R) /\ Brush.constant b SET_SMUDGE = true.

  Lemma alike_values : forall b1 b2 vs, alike b1 b2 -> alike (with_values b1 vs) (with_values b2 vs).
  Proof. intros b1 b2 vs [H1 H2 S F K]. split; [exact H1|exact H2|exact S|rewrite F; reflexivity|exact K]. Qed.

  Lemma calc_nth : forall ms data vs i m, calculate_all ms data = Ok vs -> nth_error ms i = Some m -> mp_used m = 0 -> nth i vs (0%R : sng mixR) = mp_base m.
  Proof.
    induction ms as [|m0 ms IH]; intros data vs i m C N U; [destruct i; discriminate N|]. cbn [calculate_all] in C. apply obind_ok in C. destruct C as (v & Ev & C). apply obind_ok in C. destruct C as (vs' & Evs & C). apply Ok_inj in C. subst vs.
    destruct i as [|i]; cbn in N |- *; [injection N as ->|exact (IH data vs' i m Evs N U)]. unfold mapping_calculate in Ev. rewrite U in Ev. apply Ok_inj in Ev. symmetry. exact Ev.
  Qed.
  Lemma calc_short : forall ms data vs i, calculate_all ms data = Ok vs -> nth_error ms i = None -> nth i vs (0%R : sng mixR) = (0%R : sng mixR).
  Proof.
    induction ms as [|m0 ms IH]; intros data vs i C N; cbn [calculate_all] in C; [apply Ok_inj in C; subst vs; destruct i; reflexivity|].
    apply obind_ok in C. destruct C as (v & Ev & C). apply obind_ok in C. destruct C as (vs' & Evs & C). apply Ok_inj in C. subst vs. destruct i as [|i]; [discriminate N|]. exact (IH data vs' i Evs N).
  Qed.

  Lemma update_alike : forall b1 b2 (p : step_) b1', alike b1 b2 -> still b1 -> update_states L b1 p = Ok b1' ->
    exists b2', update_states L b2 p = Ok b2' /\ alike b1' b2' /\ still b1' /\ dry b1'.
  Proof.
    intros b1 b2 p b1' H St U. unfold update_states in *. cbv zeta in *. apply obind_ok in U. destruct U as (vs & Ev & U). apply Ok_inj in U.
    pose proof (pen_alike _ _ p H) as Hp. pose proof (step_pen_os L b1 p) as O. assert (b_settings (step_pen L b1 p) = b_settings b1) as Es by apply (os_settings _ _ O).
    destruct (alike_random _ _ Hp) as (_ & _ & _ & _ & Es2 & _). rewrite Es2, Es. rewrite Es in Ev. rewrite <- (values_alike _ _ _ Hp (proj1 St)), Ev. cbn [obind].
    eexists. split; [reflexivity|]. subst b1'. split; [apply filters_alike, alike_values; exact Hp|].
    pose proof (step_filters_os L (with_values (step_pen L b1 p) vs) p) as O2. assert (b_settings (step_filters L (with_values (step_pen L b1 p) vs) p) = b_settings b1) as E3 by (rewrite (os_settings _ _ O2); exact Es).
    split; [unfold still; rewrite E3; exact St|]. split.
    - unfold val. destruct O2 as (-> & _). cbn [with_states with_values b_values]. destruct (nth_error (b_settings b1) SET_SMUDGE) as [m|] eqn:N.
      + destruct (proj2 St m N) as (U & B). etransitivity; [exact (calc_nth _ _ _ _ _ Ev N U)|exact B].
      + exact (calc_short _ _ _ _ Ev N).
    - unfold Brush.constant. rewrite E3. destruct (nth_error (b_settings b1) SET_SMUDGE) as [m|] eqn:N; [|reflexivity]. destruct (proj2 St m N) as (U & B). unfold mapping_is_constant. rewrite U. reflexivity.
  Qed.

  (** *** A dab *)
  Definition move_dab (d : dab mixR) : dab mixR :=
    mkDab ((dab_x d + IZR a)%R : sng mixR) ((dab_y d + IZR c)%R : sng mixR) (dab_radius d) (dab_r d) (dab_g d) (dab_b d) (dab_opaque d) (dab_hardness d) (dab_softness d) (dab_alpha_eraser d)
      (dab_aspect d) (dab_angle d) (dab_lock_alpha d) (dab_colorize d) (dab_posterize d) (dab_posterize_num d) (dab_paint d).

  Lemma alike_rng : forall b1 b2 g, alike b1 b2 -> alike (with_rng b1 g) (with_rng b2 g).
  Proof. intros b1 b2 g [H1 H2 S F K]. split; [exact H1|exact H2|exact S|rewrite F; reflexivity|exact K]. Qed.
  Lemma alike_rand : forall b1 b2 r, alike b1 b2 -> alike (with_random b1 r) (with_random b2 r).
  Proof. intros b1 b2 g [H1 H2 S F K]. split; [exact H1|exact H2|exact S|rewrite F; reflexivity|exact K]. Qed.
  Lemma alike_times : forall b1 b2 u v, alike b1 b2 -> alike (with_times b1 u v) (with_times b2 u v).
  Proof. intros b1 b2 u v [H1 H2 S F K]. split; [exact H1|exact H2|exact S|rewrite F; reflexivity|exact K]. Qed.

  Lemma offsets_alike : forall b1 b2 r f, alike b1 b2 -> directional_offsets L b2 r f = directional_offsets L b1 r f.
  Proof. intros b1 b2 r f H. apply offsets_same; [intros i; apply (alike_val _ _ i H)|apply (alike_same _ _ _ H); reflexivity..]. Qed.

  Lemma position_alike : forall b1 b2 x y b1', alike b1 b2 -> dab_position L b1 = Ok (x, y, b1') ->
    exists b2', dab_position L b2 = Ok ((x + IZR a)%R : sng mixR, (y + IZR c)%R : sng mixR, b2') /\ alike b1' b2' /\ b_values b1' = b_values b1 /\ b_settings b1' = b_settings b1.
  Proof.
    intros b1 b2 x y b1' H D. unfold dab_position in *. cbv zeta in *. same H. destruct (to_i _) as [f| |]; [|discriminate D|discriminate D]. cbn [obind] in *. rewrite (offsets_alike _ _ _ _ H).
    destruct (alike_random _ _ H) as (_ & _ & _ & _ & _ & Er & _). rewrite Er.
    set (o := directional_offsets L b1 _ _) in *. pose proof (alike_ax _ _ H) as Ax. pose proof (alike_ay _ _ H) as Ay.
    change (@nadd (sng mixR)) with Rplus in *. change (@nadd (dbl mixR)) with Rplus in *. change (@nar mixR) with (fun v : R => v) in *. change (@wid mixR) with (fun v : R => v) in *. cbv beta in *.
    rewrite Ax, Ay.
    match type of D with context [Ok (?u, ?v, b1)] => set (sx := u : R) in D; set (sy := v : R) in D end.
    match goal with |- context [if truthy (val b1 SET_OFFSET_BY_RANDOM) then _ else Ok (?u, ?v, b2)] => assert (@eq R u (sx + IZR a)%R) as Eu by (unfold sx; destruct (truthy _); ring); assert (@eq R v (sy + IZR c)%R) as Evv by (unfold sy; destruct (truthy _); ring); rewrite Eu, Evv; clear Eu Evv end.
    destruct (truthy (val b1 SET_OFFSET_BY_RANDOM)).
    - destruct (rand_gauss (b_rng b1)) as [(r1, g1)| |]; [|discriminate D|discriminate D]. cbn [obind] in *. destruct (rand_gauss g1) as [(r2, g2)| |]; [|discriminate D|discriminate D]. cbn [obind] in *.
      apply Ok_inj in D. injection D as <- <- <-. exists (with_rng b2 g2). split; [|split; [apply alike_rng; exact H|split; reflexivity]].
      match goal with |- Ok (?u, ?v, _) = Ok (?u2, ?v2, _) => assert (@eq R u u2) as E1; [|assert (@eq R v v2) as E2] end.
      { change (@nmul (sng mixR)) with Rmult. ring. } { change (@nmul (sng mixR)) with Rmult. ring. } rewrite E1, E2. reflexivity.
    - apply Ok_inj in D. injection D as <- <- <-. eexists. split; [reflexivity|]. split; [exact H|split; reflexivity].
  Qed.

  Lemma size_alike : forall b1 b2 o r o' b1', alike b1 b2 -> dab_size L b1 o = Ok (r, o', b1') ->
    exists b2', dab_size L b2 o = Ok (r, o', b2') /\ alike b1' b2' /\ b_values b1' = b_values b1 /\ b_settings b1' = b_settings b1.
  Proof.
    intros b1 b2 o r o' b1' H D. unfold dab_size in *. cbv zeta in *. same H. destruct (alike_random _ _ H) as (_ & _ & _ & _ & _ & Er & _). rewrite Er. destruct (truthy _).
    - destruct (rand_gauss (b_rng b1)) as [(r1, g1)| |]; [|discriminate D|discriminate D]. cbn [obind] in *. apply Ok_inj in D. injection D as <- <- <-. exists (with_rng b2 g1). split; [reflexivity|]. split; [apply alike_rng; exact H|split; reflexivity].
    - apply Ok_inj in D. injection D as <- <- <-. exists b2. split; [reflexivity|]. split; [exact H|split; reflexivity].
  Qed.

  Lemma floor_shift : forall (x : R) (k : Z), (IZR (Zfloor (x + IZR k)) = IZR (Zfloor x) + IZR k)%R.
  Proof.
    intros x k. rewrite <- plus_IZR. apply f_equal. apply Zfloor_imp. rewrite plus_IZR. pose proof (Zfloor_lb x). pose proof (Zfloor_ub x). rewrite !plus_IZR. lra.
  Qed.
  Lemma snap_alike : forall (x y r sn : R) x' y' r', snap_pixel L (x : sng mixR) (y : sng mixR) (r : sng mixR) (sn : sng mixR) = (x', y', r') ->
    snap_pixel L ((x + IZR a)%R : sng mixR) ((y + IZR c)%R : sng mixR) (r : sng mixR) (sn : sng mixR) = ((x' + IZR a)%R : sng mixR, (y' + IZR c)%R : sng mixR, r').
  Proof.
    intros x y r sn x' y' r' H. unfold snap_pixel in *. cbv zeta in *. destruct (nlt _ _).
    - injection H as <- <- <-. change (@nadd (sng mixR)) with Rplus. change (@nadd (dbl mixR)) with Rplus. change (@nsub (sng mixR)) with Rminus. change (@nmul (sng mixR)) with Rmult. change (@nar mixR) with (fun v : R => v). change (@wid mixR) with (fun v : R => v). change (@flo mixR) with (fun v : R => IZR (Zfloor v)). cbv beta.
      rewrite !floor_shift. change (@dec mixR 1 2) with (1 / 2)%R. match goal with |- (?u, ?v, _) = (?u2, ?v2, _) => assert (@eq R u u2) as E1 by ring; assert (@eq R v v2) as E2 by ring end. rewrite E1, E2. reflexivity.
    - injection H as <- <- <-. reflexivity.
  Qed.

  Lemma alike_constant : forall b1 b2 i, alike b1 b2 -> Brush.constant b2 i = Brush.constant b1 i.
  Proof. intros b1 b2 i [_ _ _ F _]. rewrite F. reflexivity. Qed.

  Variable Rs : e_surf E -> e_surf E -> Prop.
  Hypothesis HD : forall s1 s2 d p s1', Rs s1 s2 -> e_draw E s1 d = Ok (p, s1') -> exists s2', e_draw E s2 (move_dab d) = Ok (p, s2') /\ Rs s1' s2'.
  Definition worlds (w1 w2 : world E) : Prop := Rs (w_surf w1) (w_surf w2) /\ w_mix w2 = w_mix w1.

  Lemma draw_alike : forall b1 b2 w1 w2 lin r b1' w1', alike b1 b2 -> dry b1 -> worlds w1 w2 -> prepare_and_draw_dab L b1 w1 lin = Ok (r, b1', w1') ->
    exists b2' w2', prepare_and_draw_dab L b2 w2 lin = Ok (r, b2', w2') /\ alike b1' b2' /\ worlds w1' w2' /\ b_settings b1' = b_settings b1.
  Proof.
    intros b1 b2 w1 w2 lin r b1' w1' H (Dv & Dc) (Sw & Mw) D. unfold prepare_and_draw_dab in *. cbv zeta in *.
    assert (dab_opacity L b2 = dab_opacity L b1) as ->. { unfold dab_opacity. cbv zeta. same H. reflexivity. }
    destruct (dab_position L b1) as [((x, y), c1)| |] eqn:E1; [|discriminate D|discriminate D]. cbn [obind] in D. destruct (position_alike _ _ _ _ _ H E1) as (c2 & -> & H2 & V2 & S2). cbn [obind].
    destruct (dab_size L c1 _) as [((rad, op), c3)| |] eqn:E2; [|discriminate D|discriminate D]. cbn [obind] in D. destruct (size_alike _ _ _ _ _ _ H2 E2) as (c4 & -> & H4 & V4 & S4). cbn [obind].
    same H4. rewrite (alike_constant _ _ SET_PAINT_MODE H4), (alike_constant _ _ SET_SMUDGE H4). destruct (hsv_to_rgb _ _) as [col| |]; [|discriminate D|discriminate D]. cbn [obind] in *.
    assert (val c3 SET_SMUDGE = 0%R :> R) as Vs by (unfold val; rewrite V4, V2; exact Dv).
    assert (Brush.constant c3 SET_SMUDGE = true) as Cs by (unfold Brush.constant; rewrite S4, S2; exact Dc).
    assert (truthy (val c3 SET_SMUDGE) = false) as Ts by (rewrite Vs; unfold truthy; change (negb (Req_bool 0 0) = false); rewrite Req_bool_true; reflexivity).
    assert (@nlt (dbl mixR) (nofZ 0) (@wid mixR (val c3 SET_SMUDGE)) = false) as Ns by (rewrite Vs; change (Rlt_bool 0 0 = false); apply Rlt_bool_false; lra).
    rewrite Ts, Cs in D |- *. cbn [orb negb] in *. rewrite andb_false_r in *. cbn [obind] in *. rewrite Ns in *. cbn [obind] in *.
    assert (dab_color L c4 col lin = dab_color L c3 col lin) as ->. { unfold dab_color. cbv zeta. same H4. reflexivity. }
    destruct (dab_color L c3 col lin) as [col2| |]; [|discriminate D|discriminate D]. cbn [obind] in *. same H4. destruct (anti_alias _ _ _) as (rad2, hard). destruct (snap_pixel L x y rad2 _) as ((x', y'), rad3) eqn:E3.
    pose proof (snap_alike _ _ _ _ _ _ _ E3) as E3'. match goal with |- context [snap_pixel L ?u ?v ?k ?n] => assert (snap_pixel L u v k n = ((x' + IZR a)%R : sng mixR, (y' + IZR c)%R : sng mixR, rad3)) as -> by exact E3' end. destruct col2 as ((cr, cg), cb). 
    destruct (e_draw E (w_surf w1) _) as [(p, sf)| |] eqn:E4; [|discriminate D|discriminate D]. cbn [obind] in D. apply Ok_inj in D. injection D as <- <- <-.
    destruct (HD _ _ _ _ _ Sw E4) as (sf2 & E5 & Sf). unfold move_dab in E5. cbn [dab_x dab_y dab_radius dab_r dab_g dab_b dab_opaque dab_hardness dab_softness dab_alpha_eraser dab_aspect dab_angle dab_lock_alpha dab_colorize dab_posterize dab_posterize_num dab_paint] in E5. 
    rewrite E5. cbn [obind]. exists c4, (mkWorld sf2 (w_mix w2)). split; [reflexivity|]. split; [exact H4|]. split; [split; [exact Sf|exact Mw]|]. rewrite S4. exact S2.
  Qed.

  (** *** An event *)
  Definition move_target (g : target mixR) : target mixR :=
    mkTarget ((g_x g + IZR a)%R : sng mixR) ((g_y g + IZR c)%R : sng mixR) (g_pressure g) (g_tilt g) (g_viewzoom g) (g_viewrotation g) (g_barrel g) (g_linear g).

  Lemma count_alike : forall b1 b2 (x y t : sng mixR) n b1', alike b1 b2 -> count_dabs_to L b1 x y t = (n, b1') ->
    exists b2', count_dabs_to L b2 ((x + IZR a)%R : sng mixR) ((y + IZR c)%R : sng mixR) t = (n, b2') /\ alike b1' b2' /\ b_settings b1' = b_settings b1.
  Proof.
    intros b1 b2 x y t n b1' H D. unfold count_dabs_to in *. cbv zeta in *. same H.
    set (d1 := if neqb _ _ then set_st b1 STATE_ACTUAL_RADIUS _ else b1) in *. set (d2 := if neqb _ _ then set_st b2 STATE_ACTUAL_RADIUS _ else b2) in *.
    assert (alike d1 d2) as H'. { unfold d1, d2. destruct (neqb _ _); [apply alike_set; [exact H|reflexivity|vm_compute; lia]|exact H]. }
    assert (b_settings d1 = b_settings b1) as Sd by (unfold d1; destruct (neqb _ _); reflexivity). clearbody d1 d2. same H'.
    assert (@eq R (@nsub (sng mixR) (x + IZR a)%R (st d2 STATE_X)) (@nsub (sng mixR) x (st d1 STATE_X))) as E1. { change (@nsub (sng mixR)) with Rminus. rewrite (alike_x _ _ H'). ring. }
    assert (@eq R (@nsub (sng mixR) (y + IZR c)%R (st d2 STATE_Y)) (@nsub (sng mixR) y (st d1 STATE_Y))) as E2. { change (@nsub (sng mixR)) with Rminus. rewrite (alike_y _ _ H'). ring. }
    rewrite E1, E2. exists d2. injection D as <- <-. split; [reflexivity|]. split; [exact H'|exact Sd].
  Qed.

  Lemma towards_alike : forall b1 b2 g u v f, alike b1 b2 -> step_towards b2 (move_target g) u v f = step_towards b1 g u v f.
  Proof.
    intros b1 b2 g u v f H. unfold step_towards. cbn [move_target g_x g_y g_pressure g_tilt g_viewzoom g_viewrotation g_barrel]. same H.
    assert (@eq R (@nsub (sng mixR) (g_x g + IZR a)%R (st b2 STATE_X)) (@nsub (sng mixR) (g_x g) (st b1 STATE_X))) as E1. { change (@nsub (sng mixR)) with Rminus. rewrite (alike_x _ _ H). ring. }
    assert (@eq R (@nsub (sng mixR) (g_y g + IZR c)%R (st b2 STATE_Y)) (@nsub (sng mixR) (g_y g) (st b1 STATE_Y))) as E2. { change (@nsub (sng mixR)) with Rminus. rewrite (alike_y _ _ H). ring. }
    rewrite E1, E2. reflexivity.
  Qed.

  Record along (p1 p2 : progress E) : Prop := {
    an_brush : alike (p_brush p1) (p_brush p2); an_still : still (p_brush p1); an_world : worlds (p_world p1) (p_world p2);
    an_painted : p_painted p2 = p_painted p1; an_left : p_left p2 = p_left p1; an_moved : p_moved p2 = p_moved p1; an_todo : p_todo p2 = p_todo p1 }.

  Lemma one_along : forall g p1 p2 p1', along p1 p2 -> one_dab L g p1 = Ok p1' -> exists p2', one_dab L (move_target g) p2 = Ok p2' /\ along p1' p2'.
  Proof.
    intros g p1 p2 p1' [H St Hw Ep El Em Et] D. unfold one_dab in *. cbv zeta in *. rewrite Em, Et, El, Ep.
    destruct (if nlt _ _ then _ else _) as (ddab, moved). rewrite (towards_alike _ _ g _ _ _ H).
    destruct (update_states L (p_brush p1) _) as [c1| |] eqn:E1; [|discriminate D|discriminate D]. cbn [obind] in D. destruct (update_alike _ _ _ _ H St E1) as (c2 & -> & H2 & St2 & Dr2). cbn [obind].
    change (g_linear (move_target g)) with (g_linear g). change (g_x (move_target g)) with ((g_x g + IZR a)%R : sng mixR). change (g_y (move_target g)) with ((g_y g + IZR c)%R : sng mixR).
    assert (alike (set_st c1 STATE_FLIP (nmul (st c1 STATE_FLIP) (nofZ (-1)))) (set_st c2 STATE_FLIP (nmul (st c2 STATE_FLIP) (nofZ (-1))))) as H3. { same H2. apply alike_set; [exact H2|reflexivity|vm_compute; lia]. }
    destruct (prepare_and_draw_dab L (set_st c1 _ _) _ _) as [((pn, c3), w3)| |] eqn:E2; [|discriminate D|discriminate D]. cbn [obind] in D.
    destruct (draw_alike _ _ _ _ _ _ _ _ H3 Dr2 Hw E2) as (c4 & w4 & -> & H4 & W4 & S4). cbn [obind]. destruct (alike_random _ _ H4) as (_ & _ & _ & _ & _ & Er & _). rewrite Er.
    destruct (e_next E (b_rng c3)) as [(rr, rg)| |]; [|discriminate D|discriminate D]. cbn [obind] in *.
    destruct (count_dabs_to L (with_random (with_rng c3 rg) rr) _ _ _) as (n, c5) eqn:E3.
    destruct (count_alike _ _ _ _ _ _ _ (alike_rand _ _ rr (alike_rng _ _ rg H4)) E3) as (c6 & -> & H6 & S6). apply Ok_inj in D. subst p1'. eexists. split; [reflexivity|].
    split; try reflexivity; [exact H6| |exact W4]. cbn [p_brush]. unfold still. rewrite S6. change (still c3). unfold still. rewrite S4. exact St2.
  Qed.

  Lemma dabs_along : forall n g p1 p2 p1', along p1 p2 -> dabs L n g p1 = Ok (Some p1') -> exists p2', dabs L n (move_target g) p2 = Ok (Some p2') /\ along p1' p2'.
  Proof.
    induction n as [|n IH]; intros g p1 p2 p1' A D; cbn [dabs] in *; (assert (pending p2 = pending p1) as -> by (unfold pending; rewrite (an_moved _ _ A), (an_todo _ _ A); reflexivity)); destruct (pending p1); [discriminate D|apply Ok_inj in D; injection D as <-; eauto| |apply Ok_inj in D; injection D as <-; eauto].
    destruct (one_dab L g p1) as [q1| |] eqn:E1; [|discriminate D|discriminate D]. cbn [obind] in D. destruct (one_along _ _ _ _ A E1) as (q2 & -> & A2). cbn [obind]. eapply IH; eauto.
  Qed.

  Lemma paint_alike : forall n b1 b2 w1 w2 g dt r b1' w1', alike b1 b2 -> still b1 -> worlds w1 w2 -> paint_to L n b1 w1 g dt = Ok (Some (r, b1', w1')) ->
    exists b2' w2', paint_to L n b2 w2 (move_target g) dt = Ok (Some (r, b2', w2')) /\ alike b1' b2' /\ still b1' /\ worlds w1' w2'.
  Proof.
    intros n b1 b2 w1 w2 g dt r b1' w1' H St Hw D. unfold paint_to, paint_dabs in *. cbv zeta in *. same H.
    change (g_x (move_target g)) with ((g_x g + IZR a)%R : sng mixR). change (g_y (move_target g)) with ((g_y g + IZR c)%R : sng mixR).
    destruct (count_dabs_to L b1 _ _ _) as (n0, c1) eqn:E1. destruct (count_alike _ _ _ _ _ _ _ H E1) as (c2 & -> & H2 & S2).
    destruct (dabs L n g _) as [[q1|]| |] eqn:E2; [|discriminate D|discriminate D|discriminate D]. cbn [obind] in D.
    match type of E2 with dabs _ _ _ ?p = _ => assert (along p (mkProgress c2 w2 None dt (st b1 STATE_PARTIAL_DABS) n0 [])) as A end.
    { split; try reflexivity; [exact H2| |exact Hw]. cbn [p_brush]. unfold still. rewrite S2. exact St. }
    destruct (dabs_along _ _ _ _ _ A E2) as (q2 & -> & A2). cbn [obind]. clear A E2 E1 H2 S2 H c1 c2. destruct A2 as [H St2 Hw2 Ep El Em Et].
    unfold paint_rest, last_step in *. cbv zeta in *. rewrite Em, Et, El, Ep. rewrite (towards_alike _ _ g _ _ _ H). change (g_pressure (move_target g)) with (g_pressure g).
    destruct (update_states L (p_brush q1) _) as [c1| |] eqn:E1; [|discriminate D|discriminate D]. cbn [obind] in D. destruct (update_alike _ _ _ _ H St2 E1) as (c2 & -> & H2 & St3 & _). cbn [obind].
    assert (alike (set_st c1 STATE_PARTIAL_DABS (nadd (p_moved q1) (p_todo q1))) (set_st c2 STATE_PARTIAL_DABS (nadd (p_moved q1) (p_todo q1)))) as H3 by (apply alike_set; [exact H2|reflexivity|vm_compute; lia]).
    set (d1 := set_st c1 _ _) in *. set (d2 := set_st c2 _ _) in *. assert (still d1) as St4 by exact St3. clearbody d1 d2.
    unfold stroke_split in *. cbv zeta in *. destruct (alike_random _ _ H3) as (_ & _ & _ & _ & _ & _ & _ & _ & _ & P1 & P2). rewrite P1, P2 in *.
    destruct (match p_painted q1 with Some v => v | None => _ end).
    - cbn [obind] in *. apply Ok_inj in D. injection D as <- <- <-. eexists _, _. split; [reflexivity|]. split; [apply alike_times; exact H3|]. split; [exact St4|exact Hw2].
    - cbn [b_painting with_times] in *. destruct (neqb _ _); cbn [obind] in *; apply Ok_inj in D; injection D as <- <- <-; (eexists _, _; split; [reflexivity|]; split; [apply alike_times; exact H3|]; split; [exact St4|exact Hw2]).
  Qed.
End Shift.
