(** Property C30: what a reset erases and what it leaves. *)
From Verif Require Import Base F32 F32Proofs Arith Color Mapping P_Mapping Settings Spectral Brush BrushProofs BrushInst BrushToy P_Bucket.
From Coq Require Import Reals Lra.
From Flocq Require Import Core.Core IEEE754.BinarySingleNaN.
Local Open Scope Z_scope.

Section Reset.
  Context {M : mixed} (L : mathlib M) {E : env M}.
  Notation S := (car (sng M)).
  Notation brush := (brush E).
  Notation s z := (@nofZ (sng M) z).

  (** The event is handled in one go (and not split into a silent first part,
      which happens when the pen comes down after more than 0.1 seconds). *)
  Definition in_one_go (b : brush) (e : event M) : Prop := forall t e1, sanitise L e = Ok (t, e1) ->
    nlt (dec 100 1000) (ev_dtime e1) && truthy (ev_pressure e1) && neqb (st b STATE_PRESSURE) (s 0) = false.

  (** The states a stroke starts with: the pen's position and pressure, nothing
      else of the past. *)
  Definition initial_state (x y pressure : S) (i : nat) : S :=
    if (i =? STATE_X)%nat || (i =? STATE_ACTUAL_X)%nat then x
    else if (i =? STATE_Y)%nat || (i =? STATE_ACTUAL_Y)%nat then y
    else if (i =? STATE_PRESSURE)%nat then pressure
    else if (i =? STATE_STROKE)%nat then s 1
    else if (i =? STATE_FLIP)%nat then s (-1)
    else s 0.
  Definition initial_states (x y pressure : S) : list S := map (initial_state x y pressure) (seq 0 STATES_COUNT).

  Lemma states_set : forall (b : brush) i v, b_states (set_st b i v) = upd (b_states b) i v.
  Proof. reflexivity. Qed.
  Lemma set_is : forall (b : brush) l i v, set_st (with_states b l) i v = with_states b (upd l i v).
  Proof. reflexivity. Qed.
  Lemma do_reset_states : forall (b : brush) x y p b', do_reset b x y p = Ok b' ->
    b_states b' = initial_states x y p /\ b_reset b' = false.
  Proof.
    intros b x y p b' H. unfold do_reset in H. apply obind_ok in H. destruct H as (b1 & E1 & H).
    assert (b_states b1 = upd (repeat (s 0) STATES_COUNT) STATE_FLIP (s (-1)) /\ b_reset b1 = false) as [S1 R1].
    { unfold brush_reset in E1. cbv zeta in E1. cbn [with_states with_skip with_reset b_buckets] in E1.
      destruct (b_buckets b) as [mem|]; [|apply Ok_inj in E1; subst b1; auto].
      match type of E1 with (if ?c then _ else _) = _ => destruct c end; [|apply Ok_inj in E1; subst b1; auto].
      apply obind_ok in E1. destruct E1 as (m & _ & E1). apply Ok_inj in E1. subst b1. auto. }
    apply obind_ok in H. destruct H as ((r, g) & _ & H). cbv zeta in H. apply Ok_inj in H. subst b'.
    split; [|exact R1]. unfold st. rewrite !states_set.
    change (b_states (with_random (with_rng b1 g) r)) with (b_states b1). rewrite S1. reflexivity.
  Qed.
  Lemma do_reset_plain : forall (b : brush) x y p, b_buckets b = None ->
    do_reset b x y p =
    (let* (r, g) := e_next E (b_rng b) in
     Ok (mkBrush (b_painting b) (b_idling b) (initial_states x y p) None (b_nbuckets b) (b_minb b) (b_maxb b) r
           (s 0) (s 0) (s 0) (s 0) g (b_settings b) (b_values b) (b_gamma b) (b_m b) (b_q b) false)).
  Proof.
    intros b x y p H. unfold do_reset, brush_reset. cbv zeta. cbn [with_states with_skip with_reset b_buckets]. rewrite H. cbn [obind b_rng].
    change (b_rng (with_states _ _)) with (b_rng b).
    destruct (e_next E (b_rng b)) as [[r g]| |]; [|reflexivity..]. cbn [obind].
    match goal with |- context [with_random (with_rng (with_states ?b0 ?l) g) r] =>
      change (with_random (with_rng (with_states b0 l) g) r) with (with_states (with_random (with_rng b0 g) r) l) end.
    rewrite !set_is. f_equal. unfold st. cbn [b_states with_states]. 
    unfold with_states. cbn -[initial_states upd]. f_equal; auto.
  Qed.

  (** The tracked cursor position of the event. *)
  Lemma reset_event : forall fuel (b : brush) w e r, b_reset b = true -> in_one_go b e ->
    stroke_to L fuel b w e = Ok r ->
    exists t e1 b1 dt x y b2 b', sanitise L e = Ok (t, e1) /\
      skip_input L b (ev_x e1) (ev_y e1) (ev_dtime e1) = (b1, Some dt) /\ track L b1 (ev_x e1) (ev_y e1) dt = Ok (x, y, b2) /\
      do_reset b2 x y (ev_pressure e1) = Ok b' /\ r = Some (true, b', w).
  Proof.
    intros fuel b w e r R G H. unfold stroke_to in H. apply obind_ok in H. destruct H as ((t, e1) & Es & H).
    rewrite (G t e1 Es) in H. unfold stroke_rest in H. destruct (skip_input L b (ev_x e1) (ev_y e1) (ev_dtime e1)) as [b1 go] eqn:Ek.
    pose proof (skip_fields L _ _ _ _ _ _ Ek) as Fk.
    assert (exists dt, go = Some dt) as [dt ->].
    { unfold skip_input in Ek. cbv zeta in Ek. destruct (nlt _ (wid (b_skip b))); [|injection Ek as _ <-; eauto].
      rewrite R, orb_true_r, andb_false_r in Ek. injection Ek as _ <-. eauto. }
    apply obind_ok in H. destruct H as (((x, y), b2) & Et & H). pose proof (track_fields L _ _ _ _ _ _ _ Et) as Ft.
    assert (b_reset b2 = true) as R2 by (rewrite Ft, Fk; exact R). rewrite R2, orb_true_r in H.
    apply obind_ok in H. destruct H as (b' & Ed & H). apply Ok_inj in H. subst r.
    exists t, e1, b1, dt, x, y, b2, b'. auto.
  Qed.

  (** *** All 44 states are erased.
      When a reset was requested, the next event reports a new stroke, draws
      nothing and leaves the states a fresh brush would have at that position. *)
  Theorem C30_states_erased : forall fuel (b : brush) w e r, b_reset b = true -> in_one_go b e ->
    stroke_to L fuel b w e = Ok r ->
    exists x y pressure b', r = Some (true, b', w) /\ b_states b' = initial_states x y pressure /\ b_reset b' = false.
  Proof.
    intros fuel b w e r R G H. apply reset_event in H; auto.
    destruct H as (t & e1 & b1 & dt & x & y & b2 & b' & _ & _ & _ & Ed & ->).
    exists x, y, (ev_pressure e1), b'. split; [auto|]. eapply do_reset_states; eauto.
  Qed.

  (** *** Smudge buckets *)
  Definition empty_bucket : bucket M := mkBucket (s 0, s 0, s 0, s 0) (s 0, s 0, s 0, s 0) (s 0).

  Lemma reset_memory : forall fuel (b : brush) w e b' w', reachable L b -> b_reset b = true -> in_one_go b e ->
    stroke_to L fuel b w e = Ok (Some (true, b', w')) -> 0 <= b_minb b -> 0 < b_nbuckets b ->
    exists mem mem', b_buckets b = Some mem /\ b_buckets b' = Some mem' /\ Z.of_nat (length mem) = b_nbuckets b * 9 /\
      b_minb b <= b_maxb b < b_nbuckets b /\
      clear mem (b_minb b) ((b_maxb b - b_minb b + 1) * 9) = Ok mem'.
  Proof.
    intros fuel b w e b' w' Rb R G H Hm Hn. apply reset_event in H; auto.
    destruct H as (t & e1 & b1 & dt & x & y & b2 & b3 & _ & Ek & Et & Ed & E3). injection E3 as <- _.
    pose proof (skip_fields L _ _ _ _ _ _ Ek) as Fk. pose proof (track_fields L _ _ _ _ _ _ _ Et) as Ft.
    destruct (reachable_shape L b Rb) as (_ & _ & _ & B). unfold bok in B.
    destruct (b_buckets b) as [mem|] eqn:Eb; cbn [buckets_ok] in B; [|lia]. destruct B as (_ & Lm & Rg & _).
    unfold do_reset in Ed. apply obind_ok in Ed. destruct Ed as (b4 & E4 & Ed).
    unfold brush_reset in E4. cbv zeta in E4. cbn [with_states with_skip with_reset b_buckets b_minb b_maxb] in E4.
    rewrite Ft, Fk in E4. cbn [with_skip with_rng b_buckets b_minb b_maxb] in E4. rewrite Eb in E4.
    destruct (Z.eqb_spec (b_minb b) (-1)); [lia|]. cbn [negb] in E4. apply obind_ok in E4. destruct E4 as (mem' & Ec & E4).
    apply obind_ok in Ed. destruct Ed as ((rr, g) & _ & Ed). cbv zeta in Ed. apply Ok_inj in Ed. subst b'. apply Ok_inj in E4. subst b4.
    exists mem, mem'. split; [reflexivity|]. split; [reflexivity|]. split; [exact Lm|]. split; [lia|exact Ec].
  Qed.

  (** If the engine has used bucket 0, all used buckets are emptied. *)
  Theorem C30_buckets_partial : forall fuel (b : brush) w e b' w', reachable L b -> b_reset b = true -> in_one_go b e ->
    stroke_to L fuel b w e = Ok (Some (true, b', w')) -> 0 < b_nbuckets b -> b_minb b = 0 ->
    forall i, 0 <= i <= b_maxb b -> engine_bucket b' i = Ok empty_bucket.
  Proof.
    intros fuel b w e b' w' Rb R G H Hn Hm i Hi.
    destruct (reset_memory fuel b w e b' w' Rb R G H) as (mem & mem' & Em & Em' & Lm & Rg & Ec); [lia..|].
    unfold engine_bucket, read_place. rewrite Em'. rewrite Hm in Ec, Rg.
    destruct (clear_ok mem 0 ((b_maxb b - 0 + 1) * 9)) as (m2 & E2 & L2 & N2); [lia..|]. rewrite Ec in E2. injection E2 as <-.
    apply (read9_cells _ _ _ (s 0)); [lia..|].
    transitivity (map (fun _ : nat => s 0) (seq 0 9)); [|reflexivity].
    apply map_ext_in. intros k Hk. apply in_seq in Hk. rewrite N2 by lia.
    destruct (Z.leb_spec 0 (Z.of_nat (Z.to_nat (i * 9) + k))); [|lia].
    destruct (Z.ltb_spec (Z.of_nat (Z.to_nat (i * 9) + k)) (0 + (b_maxb b - 0 + 1) * 9)); [|lia]. reflexivity.
  Qed.

  (** Otherwise the highest used bucket survives, except for one of its nine
      numbers: for every brush whose lowest used bucket is not bucket 0. *)
  Theorem C30_buckets_refuted : forall fuel (b : brush) w e b' w' old, reachable L b -> b_reset b = true -> in_one_go b e ->
    stroke_to L fuel b w e = Ok (Some (true, b', w')) -> 0 < b_nbuckets b -> 1 <= b_minb b ->
    engine_bucket b (b_maxb b) = Ok old ->
    exists kept, engine_bucket b' (b_maxb b) = Ok kept /\ bk_prev kept = bk_prev old /\ bk_recent kept = bk_recent old.
  Proof.
    intros fuel b w e b' w' old Rb R G H Hn Hm Eo.
    destruct (reset_memory fuel b w e b' w' Rb R G H) as (mem & mem' & Em & Em' & Lm & Rg & Ec); [lia..|].
    destruct (clear_ok mem (b_minb b) ((b_maxb b - b_minb b + 1) * 9)) as (m2 & E2 & L2 & N2); [lia..|]. rewrite Ec in E2. injection E2 as <-.
    unfold engine_bucket, read_place in *. rewrite Em in Eo. rewrite Em'.
    destruct (read9_ok mem' (b_maxb b * 9)) as [kept Ek]; [lia..|]. exists kept. split; [exact Ek|].
    apply (read9_cells _ _ _ (s 0)) in Eo; [|lia..]. apply (read9_cells _ _ _ (s 0)) in Ek; [|lia..].
    cbn [seq map] in Eo, Ek.
    assert (forall k, (1 <= k < 9)%nat -> nth (Z.to_nat (b_maxb b * 9) + k) mem' (s 0) = nth (Z.to_nat (b_maxb b * 9) + k) mem (s 0)) as K.
    { intros k Hk. rewrite N2 by lia. destruct (Z.ltb_spec (Z.of_nat (Z.to_nat (b_maxb b * 9) + k)) (b_minb b + (b_maxb b - b_minb b + 1) * 9)); [lia|].
      rewrite andb_false_r. reflexivity. }
    rewrite (K 1%nat), (K 2%nat), (K 3%nat), (K 4%nat), (K 5%nat), (K 6%nat), (K 7%nat), (K 8%nat) in Ek by lia.
    destruct old as [[[[ra ga] ba] aa] [[[pr pg] pb] pa] rc], kept as [[[[ra' ga'] ba'] aa'] [[[pr' pg'] pb'] pa'] rc'].
    cbn in Eo, Ek |- *. injection Eo. injection Ek. intros. subst. auto.
  Qed.
End Reset.

(** *** Nothing else of the past matters, in exact arithmetic.
    Two brushes with the same settings, random generator, stroke clocks and last
    setting values, but otherwise arbitrary pasts, are indistinguishable after a
    reset: the resetting event gives equal results and leaves equal brushes.
    Conditions: no smudge buckets, no tracking noise, no slow tracking. *)
Section Exact.
  Context (L : mathlib mixR) {E : env mixR}.
  Notation brush := (brush E).

  Record same_setup (b1 b2 : brush) : Prop := {
    ss_settings : b_settings b1 = b_settings b2;
    ss_values : b_values b1 = b_values b2;
    ss_speed : b_gamma b1 = b_gamma b2 /\ b_m b1 = b_m b2 /\ b_q b1 = b_q b2;
    ss_rng : b_rng b1 = b_rng b2;
    ss_clocks : b_painting b1 = b_painting b2 /\ b_idling b1 = b_idling b2;
    ss_buckets : b_buckets b1 = None /\ b_buckets b2 = None /\ b_nbuckets b1 = b_nbuckets b2 /\
                 b_minb b1 = b_minb b2 /\ b_maxb b1 = b_maxb b2 }.

  Lemma track_plain : forall (b : brush) (x y dt : R), base b SET_TRACKING_NOISE = 0%R -> (base b SET_SLOW_TRACKING <= / 1000)%R ->
    track L b (x : sng mixR) y dt = Ok (x, y, b).
  Proof.
    intros b x y dt H1 H2. unfold track. rewrite H1.
    assert (truthy (0%R : sng mixR) = false) as -> by (unfold truthy; cbn; rewrite Req_bool_true; auto).
    cbn [obind]. cbv zeta. unfold filter_fac, exp_decay. cbn [mixR wid dec dbl sng numR nle car].
    rewrite Rle_bool_true by (unfold Rdiv; rewrite Rmult_1_l; exact H2). cbn.
    apply f_equal. apply f_equal2; [apply f_equal2|reflexivity]; lra.
  Qed.

  Theorem C30_exact_partial : forall fuel (b1 b2 : brush) w e,
    same_setup b1 b2 -> b_reset b1 = true -> b_reset b2 = true -> in_one_go L b1 e -> in_one_go L b2 e ->
    base b1 SET_TRACKING_NOISE = 0%R -> (base b1 SET_SLOW_TRACKING <= / 1000)%R ->
    stroke_to L fuel b1 w e = stroke_to L fuel b2 w e.
  Proof.
    intros fuel b1 b2 w e Sm R1 R2 G1 G2 Hn Hs.
    assert (forall b : brush, b_reset b = true -> in_one_go L b e -> b_settings b = b_settings b1 -> b_buckets b = None ->
      stroke_to L fuel b w e =
      (let* (t, e1) := sanitise L e in
       let* (r, g) := e_next E (b_rng b) in
       Ok (Some (true, mkBrush (b_painting b) (b_idling b) (initial_states (M := mixR) (ev_x e1) (ev_y e1) (ev_pressure e1)) None (b_nbuckets b)
           (b_minb b) (b_maxb b) r (0%R : sng mixR) (0%R : sng mixR) (0%R : sng mixR) (0%R : sng mixR) g (b_settings b) (b_values b) (b_gamma b) (b_m b) (b_q b) false, w)))) as K.
    { intros b R G Es Eb. unfold stroke_to. destruct (sanitise L e) as [[t e1]| |] eqn:Ess; [|reflexivity..]. cbn [obind].
      rewrite (G _ _ Ess). unfold stroke_rest. destruct (skip_input L b (ev_x e1) (ev_y e1) (ev_dtime e1)) as [b3 go] eqn:Ek.
      pose proof (skip_fields L _ _ _ _ _ _ Ek) as Fk.
      assert (exists dt, go = Some dt) as [dt ->].
      { unfold skip_input in Ek. cbv zeta in Ek. destruct (nlt _ (wid (b_skip b))); [|injection Ek as _ <-; eauto].
        rewrite R, orb_true_r, andb_false_r in Ek. injection Ek as _ <-. eauto. }
      assert (base b3 SET_TRACKING_NOISE = 0%R /\ (base b3 SET_SLOW_TRACKING <= / 1000)%R) as [N3 S3].
      { rewrite Fk. unfold base in *. cbn [with_skip b_settings]. rewrite Es. auto. }
      rewrite (track_plain b3 (ev_x e1) (ev_y e1) dt N3 S3). cbn [obind].
      assert (b_reset b3 = true) as -> by (rewrite Fk; exact R). rewrite orb_true_r.
      rewrite do_reset_plain by (rewrite Fk; exact Eb). rewrite Fk. cbn [with_skip b_painting b_idling b_nbuckets b_minb b_maxb b_rng b_settings b_values b_gamma b_m b_q].
      destruct (e_next E (b_rng b)) as [[r g]| |]; reflexivity. }
    destruct Sm as [A1 A2 (A3 & A4 & A5) A6 (A7 & A8) (A9 & A10 & A11 & A12 & A13)].
    rewrite (K b1), (K b2) by auto. rewrite A1, A2, A3, A4, A5, A6, A7, A8, A11, A12, A13. reflexivity.
  Qed.
End Exact.

(** *** With C floats the old position shines through, even without slow
    tracking: a brush whose last position was 2^26 and that is reset by an event
    at x = 1 starts at 0 instead of 1. *)
Section Float.
  Context (L : mathlib mix64) {E : env mix64}.
  Notation brush := (brush E).
  Definition at_position (b : brush) (x : f32) : Prop := st b STATE_X = x.

  Theorem C30_position_refuted : forall (b : brush) w e b' w' fuel t,
    at_position b (f_of_Z 67108864) -> b_reset b = true -> in_one_go L b e ->
    base b SET_TRACKING_NOISE = f0 -> base b SET_SLOW_TRACKING = f0 ->
    sanitise L e = Ok (t, e) -> ev_x e = f_of_Z 1 ->
    stroke_to L fuel b w e = Ok (Some (true, b', w')) -> at_position b' (f_of_Z 0).
  Proof.
    intros b w e b' w' fuel t Hx R G Hn Hs Es Ex H. apply reset_event in H; auto.
    destruct H as (t' & e1 & b1 & dt & x & y & b2 & b3 & Es' & Ek & Et & Ed & E3). rewrite Es in Es'. injection Es' as <- <-.
    injection E3 as <- _. pose proof (skip_fields L _ _ _ _ _ _ Ek) as Fk.
    apply do_reset_states in Ed. destruct Ed as [Ed _]. unfold at_position, st. rewrite Ed. change (nth STATE_X _ _) with x.
    assert (st b1 STATE_X = f_of_Z 67108864 /\ base b1 SET_TRACKING_NOISE = f0 /\ base b1 SET_SLOW_TRACKING = f0) as (X1 & N1 & S1).
    { rewrite Fk. auto. }
    unfold track in Et. rewrite N1 in Et. change (truthy (f0 : sng mix64)) with false in Et. cbn [obind] in Et. cbv zeta in Et.
    rewrite S1, X1, Ex in Et. unfold filter_fac, exp_decay in Et. cbn [mix64 wid dec dbl sng num32 num64 nle car nar nsub nofZ nadd nmul] in Et.
    assert (dle (d_of_f f0) (dlit 1 1000) = true) as Hle by (vm_compute; reflexivity). rewrite Hle in Et.
    apply Ok_inj in Et. apply (f_equal (fun p => fst (fst p))) in Et. cbn [fst] in Et. rewrite <- Et. vm_compute. reflexivity.
  Qed.
End Float.

(** A smudging brush with three buckets that has painted with bucket 1 and whose
    reset is pending; the next event performs it.  All hypotheses of the bucket
    theorem hold, and the old sampled colour is still there afterwards. *)
Definition smudged : calls :=
  smudging ++ [CStroke (pen 0 0 0 10); CStroke (pen 3 0 50 10); CStroke (pen 4 0 50 10); CReset].
Example C30_case : exists (b b' : brush toy) w w', session 3 smudged = Ok (Some (b, w)) /\ reachable toy_lib b /\
  b_reset b = true /\ b_nbuckets b = 3 /\ b_minb b = 1 /\ b_maxb b = 1 /\ in_one_go toy_lib b (pen 5 0 0 10) /\
  stroke_to toy_lib 9 b w (pen 5 0 0 10) = Ok (Some (true, b', w')) /\
  match engine_bucket b' 1 with Ok k => let '(r, g, _, _) := bk_prev k in feq r (flit 1 4) && feq g (flit 1 2) | _ => false end = true.
Proof.
  destruct (after_ok 3 smudged (fun b w =>
            b_reset b && (b_nbuckets b =? 3) && (b_minb b =? 1) && (b_maxb b =? 1) &&
            match sanitise toy_lib (pen 5 0 0 10) with
            | Ok (t, e1) => negb (nlt (dec 100 1000) (ev_dtime e1) && truthy (ev_pressure e1) && neqb (st b STATE_PRESSURE) (nofZ 0))
            | _ => false end &&
            match stroke_to toy_lib 9 b w (pen 5 0 0 10) with
            | Ok (Some (true, b', w')) =>
                match engine_bucket b' 1 with Ok k => let '(r, g, _, _) := bk_prev k in feq r (flit 1 4) && feq g (flit 1 2) | _ => false end
            | _ => false end) ltac:(vm_compute; reflexivity)) as (b & w & Es & H).
  repeat match type of H with _ && _ = true => let K := fresh "K" in apply andb_prop in H; destruct H as [H K] end.
  destruct (stroke_to toy_lib 9 b w (pen 5 0 0 10)) as [[[[[|] b'] w']|]| |] eqn:E2; try discriminate K.
  exists b, b', w, w'. split; [exact Es|]. split; [eapply session_reachable; [|exact Es]; lia|]. split; [exact H|].
  split; [apply Z.eqb_eq; auto|]. split; [apply Z.eqb_eq; auto|]. split; [apply Z.eqb_eq; auto|]. split; [|split; [exact E2|exact K]].
  intros t e1 E1. rewrite E1 in K0. apply negb_true_iff in K0. exact K0.
Qed.

Print Assumptions C30_states_erased.
Print Assumptions C30_buckets_partial.
Print Assumptions C30_buckets_refuted.
Print Assumptions C30_exact_partial.
Print Assumptions C30_position_refuted.
