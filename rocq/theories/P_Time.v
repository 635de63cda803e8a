(** Properties C31 and C32: what happens to the time of motion events, and when
    stroke_to asks for a stroke split, in exact real arithmetic; with what C floats
    change about it. *)
From Verif Require Import Base F32 F32Proofs Arith Color Mapping P_Mapping Settings Spectral Brush BrushProofs BrushInst BrushToy ReturnProofs StepFacts StrokeExact RealToy DabFrame Deeds P_Reset P_Spacing P_Filter P_Endless.
From Coq Require Import Reals Lra.
From Flocq Require Import Core.Core IEEE754.BinarySingleNaN.
Local Open Scope Z_scope.

Section Time.
  Context (L : mathlib mixR) {E : env mixR}.
  Notation brush := (brush E).
  Local Open Scope R_scope.

  (** *** The vocabulary *)
  (** the duration of an event; a clock that does not move counts as 0.1 ms *)
  Definition duration (e : event mixR) : R := if Rle_dec (ev_dtime e) 0 then 1 / 10000 else ev_dtime e.
  (** the time held back in the brush *)
  Definition held (b : brush) : R := b_skipped b.
  (** the time that is processed: the time of a restart, and the durations of the
      simulation steps of a movement *)
  Definition spent (d : deed E) : R :=
    match d with
    | Held => 0
    | Restarted t => t
    | Painted p g _ => total dtime (p_log p) + dtime (last_step p g)
    end.
  Definition sum (l : list R) : R := fold_right Rplus 0 l.

  (** what a program does with a brush: calls, the answers of stroke_to, and what
      was done with each event *)
  Inductive history (n : nat) : brush -> world E -> list (call mixR) -> list (bool * list (deed E)) -> brush -> world E -> Prop :=
  | h_nil : forall b w, history n b w [] [] b w
  | h_event : forall b w e a b1 w1 ds cs l b' w', stroke_deeds L n b w e = Ok (Some (a, b1, w1, ds)) ->
      history n b1 w1 cs l b' w' -> history n b w (CStroke e :: cs) ((a, map snd ds) :: l) b' w'
  | h_other : forall b w c b1 w1 cs l b' w', (forall e, c <> CStroke e) -> run_call L n b w c = Ok (Some (b1, w1)) ->
      history n b1 w1 cs l b' w' -> history n b w (c :: cs) l b' w'.
  Definition events (cs : list (call mixR)) : list (event mixR) := flat_map (fun c => match c with CStroke e => [e] | _ => [] end) cs.
  Definition deeds (l : list (bool * list (deed E))) : list (deed E) := flat_map snd l.

  (** Every successful run of a program is such a history, and the answer recorded is
      the one of stroke_to. *)
  Lemma call_history : forall n (b : brush) w e a b1 w1, stroke_to L n b w e = Ok (Some (a, b1, w1)) ->
    exists ds, stroke_deeds L n b w e = Ok (Some (a, b1, w1, ds)).
  Proof.
    intros n b w e a b1 w1 H. rewrite <- (deeds_forget L) in H. unfold forget in H. apply obind_ok in H. destruct H as (r & Er & H). apply Ok_inj in H.
    destruct r as [[[[a' b'] w'] ds]|]; [|discriminate]. cbn [option_map fst] in H. exists ds. rewrite Er. congruence.
  Qed.
  Theorem run_history : forall n cs (b : brush) w b' w',
    ofold (fun a c => match a with Some (b, w) => run_call L n b w c | None => Ok None end) cs (Some (b, w)) = Ok (Some (b', w')) ->
    exists l, history n b w cs l b' w'.
  Proof.
    intros n cs. induction cs as [|c cs IH]; intros b w b' w' H; cbn [ofold] in H; [apply Ok_inj in H; injection H as <- <-; exists []; constructor|].
    apply obind_ok in H. destruct H as (r & Er & H). destruct r as [[b1 w1]|]; [|exfalso; clear - H; induction cs; cbn in H; [discriminate|auto]].
    destruct (IH _ _ _ _ H) as (l & Hl). assert ((exists e, c = CStroke e) \/ forall e, c <> CStroke e) as [(e & ->)|N] by (destruct c; [left; eauto|right; discriminate..]).
    - cbn [run_call] in Er. apply obind_ok in Er. destruct Er as (r & Er & E1). apply Ok_inj in E1. destruct r as [[[a b2] w2]|]; [|discriminate]. cbn [option_map] in E1. injection E1 as -> ->.
      destruct (call_history _ _ _ _ _ _ _ Er) as (ds & Ed). eexists. eapply h_event; eauto.
    - eexists. eapply h_other; eauto.
  Qed.

  (** *** One event *)
  Definition held_ok (b : brush) : Prop := 0 <= held b /\ (held b <> 0 -> 1 / 1000 < (b_skip b : R)).
  Definition rise (p : progress E) (g : target mixR) : R := sp_dpressure (last_step p g).

  Lemma ltb_true : forall x y : R, Rlt_bool x y = true -> x < y.
  Proof. intros x y H. destruct (Rlt_bool_spec x y); [auto|discriminate]. Qed.
  Lemma skip_account : forall (b : brush) (x y t : R) b1 go, 0 < t -> held_ok b -> skip_input L b x y (t : dbl mixR) = (b1, go) ->
    match go with None => held_ok b1 /\ held b1 = held b + t | Some dt => held b1 = 0 /\ (dt : R) = held b + t end.
  Proof.
    intros b x y t b1 go Ht [H0 H1] H. unfold skip_input in H. cbv zeta in H.
    destruct (nlt (dec 1 1000) (wid (b_skip b))) eqn:C1; cbn [mixR wid nlt nofZ sng dbl numR car dec] in C1.
    - destruct (nlt (dec 1 1000) (wid (nsub (b_skip b) (hypotf_ L (nsub (b_skip_x b) (x : sng mixR)) (nsub (b_skip_y b) (y : sng mixR)))))) eqn:C2; cbn [andb] in H.
      + match type of H with (if negb ?c then _ else _) = _ => destruct c end; cbn [negb] in H.
        * pose proof (f_equal fst H) as F1. pose proof (f_equal snd H) as F2. cbn [fst snd] in F1, F2. rewrite <- F1, <- F2. split; [reflexivity|]. unfold held. cbn [mixR wid nar nadd sng dbl numR car]. lra.
        * pose proof (f_equal fst H) as F1. pose proof (f_equal snd H) as F2. cbn [fst snd] in F1, F2. rewrite <- F1, <- F2.
          cbn [mixR wid nlt nofZ sng dbl numR car dec] in C2. unfold held_ok, held. cbn [with_skip b_skipped b_skip]. cbn [mixR wid nar nadd sng dbl numR car].
          apply ltb_true in C2. unfold held in *. split; [split; [lra|intros _; exact C2]|lra].
      + pose proof (f_equal fst H) as F1. pose proof (f_equal snd H) as F2. cbn [fst snd] in F1, F2. rewrite <- F1, <- F2. split; [reflexivity|]. unfold held. cbn [mixR wid nar nadd sng dbl numR car]. lra.
    - pose proof (f_equal fst H) as F1. pose proof (f_equal snd H) as F2. cbn [fst snd] in F1, F2. rewrite <- F1, <- F2.
      destruct (Rlt_bool_spec (1 / 1000) (b_skip b)) as [K|K]; [discriminate|]. assert (held b = 0) as Z. { destruct (Req_dec (held b) 0) as [|N]; [auto|]. specialize (H1 N). lra. }
      split; [exact Z|]. rewrite Z. lra.
  Qed.
  Lemma track_account : forall (b : brush) x y dt x' y' b', track L b x y dt = Ok (x', y', b') -> held b' = held b /\ b_painting b' = b_painting b /\ b_idling b' = b_idling b.
  Proof.
    intros b x y dt x' y' b' H. pose proof (track_fields L _ _ _ _ _ _ _ H) as F. split; [|rewrite F; split; reflexivity].
    unfold track in H. cbv zeta in H. apply obind_ok in H. destruct H as (((x1, y1), b1) & E1 & H). apply Ok_inj in H. apply (f_equal snd) in H. cbn [snd] in H. subst b1. clear F.
    destruct (truthy _); [|apply Ok_inj in E1; apply (f_equal snd) in E1; cbn [snd] in E1; subst b'; reflexivity].
    destruct (nlt _ _); [|apply Ok_inj in E1; apply (f_equal snd) in E1; cbn [snd] in E1; subst b'; reflexivity].
    apply obind_ok in E1. destruct E1 as ((r1, g1) & _ & E1). apply obind_ok in E1. destruct E1 as ((r2, g2) & _ & E1). apply Ok_inj in E1. apply (f_equal snd) in E1. cbn [snd] in E1. subst b'. reflexivity.
  Qed.
  Lemma reset_account : forall (b : brush) x y pr b', do_reset b x y pr = Ok b' -> held b' = 0 /\ b_painting b' = b_painting b /\ b_idling b' = b_idling b.
  Proof.
    intros b x y pr b' H. unfold do_reset in H. apply obind_ok in H. destruct H as (b4 & E4 & E5). apply obind_ok in E5. destruct E5 as ((r, g) & _ & E5). cbv zeta in E5. apply Ok_inj in E5.
    assert (held b' = held b4 /\ b_painting b' = b_painting b4 /\ b_idling b' = b_idling b4) as (-> & -> & ->) by (rewrite <- E5; repeat split; reflexivity).
    unfold brush_reset in E4. cbv zeta in E4. cbn [with_states with_skip with_reset b_buckets] in E4. destruct (b_buckets b) as [mem|].
    - match type of E4 with (if ?c then _ else _) = _ => destruct c end; [apply obind_ok in E4; destruct E4 as (m & _ & E4)|]; apply Ok_inj in E4; rewrite <- E4; repeat split; reflexivity.
    - apply Ok_inj in E4; rewrite <- E4; repeat split; reflexivity.
  Qed.
  (** the durations of the steps add up *)
  Lemma one_dab_time : forall g (p p' : progress E), one_dab L g p = Ok p' -> total dtime (p_log p') + (p_left p' : R) = total dtime (p_log p) + (p_left p : R).
  Proof.
    intros g p p' O. unfold one_dab in O. cbv zeta in O. match type of O with (let '(_, _) := ?e in _) = _ => destruct e as [dd moved] end.
    apply obind_ok in O. destruct O as (b1 & _ & O). apply obind_ok in O. destruct O as (((pn, b2), w2) & _ & O). apply obind_ok in O. destruct O as ((r, rg) & _ & O).
    match type of O with context [count_dabs_to ?a ?b ?c ?d ?e] => destruct (count_dabs_to a b c d e) as [todo b3] end. apply Ok_inj in O.
    pose proof (f_equal (@p_log mixR E) O) as O1. pose proof (f_equal (@p_left mixR E) O) as O2. cbn [p_log p_left] in O1, O2. rewrite <- O1, <- O2.
    cbn [total fold_right fst]. fold (total dtime (p_log p)). unfold dtime at 1. cbn [step_towards sp_dtime]. cbn [mixR wid nar nmul nsub nofZ sng dbl numR car]. lra.
  Qed.
  Lemma dabs_time : forall n g (p p' : progress E), dabs L n g p = Ok (Some p') -> total dtime (p_log p') + (p_left p' : R) = total dtime (p_log p) + (p_left p : R).
  Proof.
    induction n as [|n IH]; intros g p p' H; cbn [dabs] in H; destruct (pending p); try discriminate; try (injection H as <-; reflexivity).
    apply obind_ok in H. destruct H as (p1 & E1 & H). rewrite (IH _ _ _ H). exact (one_dab_time _ _ _ E1).
  Qed.
  Lemma painted_spent : forall n (b : brush) w g (t : R) p, paint_dabs L n b w g (t : dbl mixR) = Ok (Some p) -> spent (Painted p g (t : dbl mixR)) = t.
  Proof.
    intros n b w g t p H. unfold paint_dabs in H. cbv zeta in H. destruct (count_dabs_to _ _ _ _ _) as [todo b1]. apply dabs_time in H. cbn [p_log p_left total fold_right] in H.
    unfold spent. unfold dtime at 2. cbn [last_step step_towards sp_dtime]. cbn [mixR nar sng dbl numR car]. lra.
  Qed.
  Lemma split_clocks : forall (b b2 : brush) pt pr dp dt, b_painting b2 = b_painting b -> b_idling b2 = b_idling b ->
    fst (stroke_split b2 pt pr dp dt) = fst (stroke_split b pt pr dp dt) /\
    b_painting (snd (stroke_split b2 pt pr dp dt)) = b_painting (snd (stroke_split b pt pr dp dt)) /\
    b_idling (snd (stroke_split b2 pt pr dp dt)) = b_idling (snd (stroke_split b pt pr dp dt)).
  Proof.
    intros b b2 pt pr dp dt E1 E2. unfold stroke_split. cbv zeta. rewrite E1, E2.
    destruct (match pt with Some v => v | None => negb (nlt (nofZ 0) (b_idling b) || neqb (b_painting b) (nofZ 0)) end).
    - cbn [fst snd with_times b_painting b_idling]. auto.
    - cbn [with_times b_painting b_idling]. destruct (neqb (b_painting b) (nofZ 0)); cbn [fst snd with_times b_painting b_idling]; auto.
  Qed.

  (** what an event does to the times: those held back, and the two clocks *)
  Definition clocks (a : bool) (b b' : brush) (d : deed E) : Prop :=
    match d with
    | Held => a = false /\ b_painting b' = b_painting b /\ b_idling b' = b_idling b
    | Restarted _ => a = true /\ b_painting b' = b_painting b /\ b_idling b' = b_idling b
    | Painted p g t => let r := stroke_split b (p_painted p) (g_pressure g) (rise p g) t in
        0 < (t : R) /\ a = fst r /\ b_painting b' = b_painting (snd r) /\ b_idling b' = b_idling (snd r)
    end.
  Lemma rest_account : forall n (b : brush) w t (e : event mixR) a b' w' d, held_ok b -> 0 < (ev_dtime e : R) ->
    rest_deed L n b w t e = Ok (Some (a, b', w', d)) -> held_ok b' /\ spent d + held b' = held b + ev_dtime e /\ clocks a b b' d.
  Proof.
    intros n b w t e a b' w' d Ho Ht O. unfold rest_deed in O. destruct (skip_input _ _ _ _ _) as [b1 go] eqn:E1.
    pose proof (skip_account _ _ _ _ _ _ Ht Ho E1) as A1. apply skip_fields in E1.
    assert (b_painting b1 = b_painting b /\ b_idling b1 = b_idling b) as [P1 I1] by (rewrite E1; split; reflexivity). clear E1.
    destruct go as [dt|].
    - destruct A1 as [Z1 T1]. apply obind_ok in O. destruct O as (((x, y), b2) & E2 & O). destruct (track_account _ _ _ _ _ _ _ E2) as (Z2 & P2 & I2). clear E2.
      match type of O with (if ?c then _ else _) = _ => destruct c end.
      + apply obind_ok in O. destruct O as (b3 & E3 & O). apply Ok_inj in O. injection O as <- <- <- <-. destruct (reset_account _ _ _ _ _ E3) as (Z3 & P3 & I3).
        unfold held_ok, clocks. rewrite Z3, P3, I3, P2, I2, P1, I1. cbn [spent]. repeat split; lra.
      + cbv zeta in O. apply obind_ok in O. destruct O as ([p|] & E3 & O); [|discriminate]. apply obind_ok in O. destruct O as ((a', b3) & E4 & O). apply Ok_inj in O. injection O as <- <- <- <-.
        pose proof (painted_spent _ _ _ _ _ _ E3) as Sp. rewrite Sp. pose proof (paint_dabs_frame L _ _ _ _ _ _ E3) as F3.
        assert (held b3 = 0) as Z3.
        { destruct (paint_rest_frame L _ _ _ _ _ E4) as (u & v & F4). unfold held. rewrite F4. cbn [b_skipped with_times]. rewrite F3. cbn [b_skipped]. unfold held in *. congruence. }
        split; [unfold held_ok; rewrite Z3; split; [lra|intros N; destruct (N eq_refl)]|]. split; [rewrite Z3; lra|].
        unfold paint_rest in E4. apply obind_ok in E4. destruct E4 as (b4 & E4 & E5). cbv zeta in E5. apply Ok_inj in E5. apply update_frame in E4.
        match type of E5 with stroke_split ?q _ _ _ _ = _ => assert (b_painting q = b_painting b /\ b_idling q = b_idling b) as [P4 I4] end.
        { rewrite <- P1, <- I1, <- P2, <- I2. change (b_painting (set_st b4 STATE_PARTIAL_DABS (nadd (p_moved p) (p_todo p)))) with (b_painting b4). change (b_idling (set_st b4 STATE_PARTIAL_DABS (nadd (p_moved p) (p_todo p)))) with (b_idling b4).
          rewrite E4. cbn [b_painting b_idling]. rewrite F3. cbn [b_painting b_idling]. auto. }
        destruct (split_clocks b _ (p_painted p) (ev_pressure e) (rise p (mkTarget x y (ev_pressure e) t (ev_viewzoom e) (ev_viewrotation e) (ev_barrel e) (ev_linear e))) dt P4 I4) as (K1 & K2 & K3).
        unfold clocks. cbv zeta. cbn [g_pressure]. split; [destruct Ho; lra|]. rewrite <- K1, <- K2, <- K3. unfold rise. cbn [g_pressure] in E5. rewrite E5. cbn [fst snd]. auto.
    - apply Ok_inj in O. injection O as <- <- <- <-. destruct A1 as [A1 A2]. cbn [spent clocks]. repeat split; auto; lra || apply A1.
  Qed.
  Lemma sane_time : forall (e : event mixR) t e1, sanitise L e = Ok (t, e1) -> (ev_dtime e1 : R) = duration e /\ 0 < duration e.
  Proof.
    intros e t e1 H. unfold sanitise in H. apply obind_ok in H. destruct H as (t0 & _ & H). cbv zeta in H.
    match type of H with (if ?c then _ else _) = _ => destruct c; [|discriminate] end. apply Ok_inj in H. apply (f_equal snd) in H. cbn [snd] in H. subst e1.
    assert (forall (c : bool) e1 e2, @ev_dtime mixR (if c then e1 else e2) = if c then ev_dtime e1 else ev_dtime e2) as -> by (intros []; auto). cbn [ev_dtime].
    unfold duration. match goal with |- context [if ?c then ?v else ?v] => replace (if c then v else v) with v by (destruct c; reflexivity) end.
    cbn [mixR nle nofZ dbl numR car dec]. destruct (Rle_bool_spec (ev_dtime e) 0); destruct (Rle_dec (ev_dtime e) 0); split; lra.
  Qed.

  (** an event: one or two deeds, the last of them gives the answer *)
  Inductive handled (b : brush) : list (deed E) -> bool -> brush -> Prop :=
  | hd_one : forall d a b', clocks a b b' d -> handled b [d] a b'
  | hd_two : forall d1 a1 b1 d a b', clocks a1 b b1 d1 -> clocks a b1 b' d -> handled b [d1; d] a b'.
  Lemma event_account : forall n (b : brush) w (e : event mixR) a b' w' ds, held_ok b ->
    stroke_deeds L n b w e = Ok (Some (a, b', w', ds)) -> held_ok b' /\ sum (map (fun d => spent (snd d)) ds) + held b' = held b + duration e /\ handled b (map snd ds) a b'.
  Proof.
    intros n b w e a b' w' ds Ho O. unfold stroke_deeds in O. apply obind_ok in O. destruct O as ((t, e1) & Es & O). destruct (sane_time _ _ _ Es) as [T1 T2]. cbv zeta in O.
    destruct (nlt (dec 100 1000) (ev_dtime e1)) eqn:C1; cbn [andb] in O; [match type of O with (if ?c then _ else _) = _ => destruct c end|].
    - apply obind_ok in O. destruct O as ((t2, e2) & Es2 & O). destruct (sane_time _ _ _ Es2) as [T3 T4]. apply obind_ok in O. destruct O as (r & Er & O). destruct r as [[[[a1 b1] w1] d1]|]; [|discriminate].
      apply obind_ok in O. destruct O as (r & Er2 & O). apply Ok_inj in O. destruct r as [[[[a2 b2] w2] d2]|]; [|discriminate]. cbn [option_map] in O. injection O as -> -> -> <-.
      destruct (rest_account _ _ _ _ _ _ _ _ _ Ho ltac:(rewrite T3; exact T4) Er) as (H1 & A1 & K1).
      destruct (rest_account _ _ _ _ (with_dtime e1 (dec 1 10000)) _ _ _ _ H1 ltac:(cbn; lra) Er2) as (H2 & A2 & K2).
      split; [exact H2|]. split; [|cbn [map app snd]; eapply hd_two; eauto]. cbn [map app snd sum fold_right].
      rewrite T3 in A1. unfold duration in A1 at 1. cbn [silent_event ev_dtime] in A1. cbn [mixR nlt dec dbl numR car] in C1. rewrite T1 in *.
      destruct (Rlt_bool_spec (100 / 1000) (duration e)) as [K|K]; [|discriminate]. cbn [with_dtime ev_dtime] in A2.
      assert ((ev_dtime (silent_event e1) : R) = duration e - 1 / 10000) as X by (rewrite <- T1; reflexivity).
      assert (((dec 1 10000 : dbl mixR) : R) = 1 / 10000) as Y by reflexivity. rewrite Y in A2.
      cbn [mixR nsub dec dbl numR car] in A1. rewrite ?T1 in A1. destruct (Rle_dec (duration e - 1 / 10000) 0); lra.
    - apply obind_ok in O. destruct O as (r & Er & O). apply Ok_inj in O. destruct r as [[[[a2 b2] w2] d2]|]; [|discriminate]. cbn [option_map] in O. injection O as -> -> -> <-.
      destruct (rest_account _ _ _ _ _ _ _ _ _ Ho ltac:(rewrite T1; exact T2) Er) as (H1 & A1 & K1). split; [exact H1|]. split; [cbn [map app snd sum fold_right]; rewrite T1 in A1; lra|]. cbn [map app snd]. constructor. exact K1.
    - apply obind_ok in O. destruct O as (r & Er & O). apply Ok_inj in O. destruct r as [[[[a2 b2] w2] d2]|]; [|discriminate]. cbn [option_map] in O. injection O as -> -> -> <-.
      destruct (rest_account _ _ _ _ _ _ _ _ _ Ho ltac:(rewrite T1; exact T2) Er) as (H1 & A1 & K1). split; [exact H1|]. split; [cbn [map app snd sum fold_right]; rewrite T1 in A1; lra|]. cbn [map app snd]. constructor. exact K1.
  Qed.
  Lemma other_account : forall n (b : brush) w c b' w', (forall e, c <> CStroke e) -> run_call L n b w c = Ok (Some (b', w')) ->
    held b' = held b /\ b_skip b' = b_skip b /\ (c <> CNewStroke -> b_painting b' = b_painting b /\ b_idling b' = b_idling b).
  Proof.
    intros n b w c b' w' N O. destruct c as [e| | |id v|id i k|id i k x y|i v|i k]; cbn [run_call] in O; [destruct (N e eq_refl)|..].
    - apply Ok_inj in O. injection O as <- _. repeat split; reflexivity.
    - apply Ok_inj in O. injection O as <- _. split; [reflexivity|split; [reflexivity|intros X; destruct (X eq_refl)]].
    - apply obind_ok in O. destruct O as (b1 & E1 & O). apply Ok_inj in O. injection O as <- _. unfold set_base_value in E1. apply obind_ok in E1. destruct E1 as (m & _ & E1). apply Ok_inj in E1. rewrite <- E1. repeat split; reflexivity.
    - apply obind_ok in O. destruct O as (b1 & E1 & O). apply Ok_inj in O. injection O as <- _. unfold set_mapping_n in E1. apply obind_ok in E1. destruct E1 as (m & _ & E1). apply obind_ok in E1. destruct E1 as (m' & _ & E1). apply Ok_inj in E1. rewrite <- E1. repeat split; reflexivity.
    - apply obind_ok in O. destruct O as (b1 & E1 & O). apply Ok_inj in O. injection O as <- _. unfold set_mapping_point in E1. apply obind_ok in E1. destruct E1 as (m & _ & E1). apply obind_ok in E1. destruct E1 as (m' & _ & E1). apply Ok_inj in E1. rewrite <- E1. repeat split; reflexivity.
    - apply obind_ok in O. destruct O as (b1 & E1 & O). apply Ok_inj in O. injection O as <- _. unfold set_state in E1. match type of E1 with (if ?c then _ else _) = _ => destruct c end; [|discriminate]. apply Ok_inj in E1. rewrite <- E1. repeat split; reflexivity.
    - apply obind_ok in O. destruct O as ((r, b1) & E1 & O). apply Ok_inj in O. injection O as <- _. unfold set_bucket_state in E1. destruct (i <? b_nbuckets b)%Z; [|apply Ok_inj in E1; injection E1 as _ <-; repeat split; reflexivity].
      destruct (b_buckets b) as [mem|]; [|discriminate]. apply obind_ok in E1. destruct E1 as (mem' & _ & E1). apply Ok_inj in E1. injection E1 as _ <-. repeat split; reflexivity.
  Qed.

  (** Theorem (C32): whatever a program does with a brush, the time processed and
      the time still held back add up to what was held back before and the durations
      of all the events. *)
  Theorem C32_conserved_partial : forall n (b b' : brush) w w' cs l, held_ok b -> history n b w cs l b' w' ->
    sum (map spent (deeds l)) + held b' = held b + sum (map duration (events cs)) /\ held_ok b'.
  Proof.
    intros n b b' w w' cs l Ho H. revert Ho. induction H as [b w|b w e a b1 w1 ds cs l b' w' Ed _ IH|b w c b1 w1 cs l b' w' N Er _ IH]; intros Ho.
    - cbn. split; [lra|exact Ho].
    - destruct (event_account _ _ _ _ _ _ _ _ Ho Ed) as (H1 & A1 & _). destruct (IH H1) as [A2 H2]. split; [|exact H2].
      unfold deeds, events. cbn [flat_map snd]. fold (deeds l) (events cs). rewrite !map_app, map_map.
      assert (forall u v, sum (u ++ v) = sum u + sum v) as S. { intros u v. unfold sum. induction u as [|x u IHu]; cbn; [lra|rewrite IHu; lra]. }
      rewrite !S. cbn [map sum fold_right]. lra.
    - destruct (other_account _ _ _ _ _ _ N Er) as (A1 & A2 & _). assert (held_ok b1) as H1 by (unfold held_ok; rewrite A1, A2; exact Ho). destruct (IH H1) as [A3 H2]. split; [|exact H2].
      rewrite A1 in A3. unfold events. cbn [flat_map]. fold (events cs). destruct c; try (cbn [app]; exact A3). destruct (N e eq_refl).
  Qed.

  (** *** Asking for a stroke split (C31) *)
  (** The movements since the stroke began, latest first: did they paint, and how
      long did they take.  A movement too short for a dab counts like the one
      before it. *)
  Definition report (acts : list (bool * R)) (d : deed E) : list (bool * R) :=
    match d with
    | Painted p _ t => (match p_painted p with Some v => v | None => match acts with (v, _) :: _ => v | [] => false end end, t : R) :: acts
    | _ => acts
    end.
  Definition activity (ds : list (deed E)) : list (bool * R) := fold_left report ds [].
  Definition painting_time (acts : list (bool * R)) : R := sum (map snd (filter fst acts)).
  (** the time since it last painted *)
  Fixpoint idle_time (acts : list (bool * R)) : R := match acts with (false, t) :: acts => t + idle_time acts | _ => 0 end.
  (** whether to split after these movements; [pressure] is that of the event and
      [rise] its increase in the last simulation step *)
  Definition split_due (acts : list (bool * R)) (pressure rise : R) : Prop :=
    match acts with
    | (true, _) :: _ => 4 + 3 * pressure < painting_time acts /\ 0 <= rise
    | _ => (painting_time acts = 0 /\ 1 < idle_time acts) \/ (painting_time acts <> 0 /\ 9 / 10 + 5 * pressure < painting_time acts + idle_time acts)
    end.
  Definition asks (acts : list (bool * R)) (d : deed E) : Prop :=
    match d with Held => False | Restarted _ => True | Painted p g _ => split_due acts (g_pressure g) (rise p g) end.

  Definition told (acts : list (bool * R)) (b : brush) : Prop :=
    (b_painting b : R) = painting_time acts /\ (b_idling b : R) = idle_time acts /\ Forall (fun a => 0 < snd a) acts.
  Lemma times_pos : forall acts, Forall (fun a => 0 < snd a) acts -> 0 <= painting_time acts /\ 0 <= idle_time acts.
  Proof.
    intros acts H. induction H as [|[v t] acts H _ [IH1 IH2]]; [cbn; lra|]. cbn [snd] in H. split.
    - unfold painting_time. cbn [filter fst]. destruct v; cbn [map snd sum fold_right]; unfold painting_time, sum in *; lra.
    - cbn [idle_time]. destruct v; lra.
  Qed.
  Lemma clocks_told : forall acts (b b' : brush) a d, told acts b -> clocks a b b' d -> told (report acts d) b' /\ (a = true <-> asks (report acts d) d).
  Proof.
    intros acts b b' a d (T1 & T2 & T3) C. destruct d as [|t|p g t]; cbn [clocks report asks] in *.
    - destruct C as (-> & P & I). split; [unfold told; rewrite P, I; auto|]. split; [discriminate|tauto].
    - destruct C as (-> & P & I). split; [unfold told; rewrite P, I; auto|tauto].
    - destruct (times_pos _ T3) as [N1 N2]. cbv zeta in C. destruct C as (Ht & A & P & I). unfold stroke_split in A, P, I. cbv zeta in A, P, I.
      set (v := match p_painted p with Some v => v | None => negb (nlt (nofZ 0) (b_idling b) || neqb (b_painting b) (nofZ 0)) end) in *.
      assert (v = match p_painted p with Some v => v | None => match acts with (v, _) :: _ => v | [] => false end end) as <-.
      { unfold v. destruct (p_painted p) as [u|]; [reflexivity|]. cbn [mixR nlt neqb nofZ dbl numR car]. rewrite T1, T2. destruct acts as [|[[|] t0] acts].
        - cbn [painting_time filter map sum fold_right idle_time]. unfold painting_time. cbn. rewrite Req_bool_true by reflexivity. rewrite orb_true_r. reflexivity.
        - cbn [idle_time]. rewrite Rlt_bool_false by lra. apply Forall_inv in T3 as T4. apply Forall_inv_tail in T3. destruct (times_pos _ T3). cbn [snd] in T4.
          unfold painting_time in *. cbn [filter fst map snd sum fold_right]. unfold sum in *. rewrite Req_bool_false by lra. reflexivity.
        - apply Forall_inv in T3 as T4. apply Forall_inv_tail in T3. destruct (times_pos _ T3). cbn [snd] in T4. cbn [idle_time]. rewrite Rlt_bool_true by lra. reflexivity. }
      clearbody v. destruct v.
      + cbn [fst snd with_times b_painting b_idling] in A, P, I. cbn [mixR nadd nmul nlt nle nofZ wid sng dbl numR car] in A, P, I. rewrite T1 in A, P.
        assert (painting_time ((true, t : R) :: acts) = painting_time acts + t) as Pt by (unfold painting_time; cbn [filter fst map snd sum fold_right]; unfold sum; lra).
        split; [split; [rewrite P, Pt; reflexivity|split; [exact I|constructor; auto]]|].
        unfold split_due. rewrite Pt, A. rewrite andb_true_iff. split.
        * intros [K1 K2]. apply ltb_true in K1. destruct (Rle_bool_spec 0 (rise p g)); [auto|discriminate].
        * intros [K1 K2]. rewrite Rlt_bool_true, Rle_bool_true by auto. auto.
      + assert (painting_time ((false, t : R) :: acts) = painting_time acts) as Pt by reflexivity.
        assert ((b_painting b' : R) = painting_time acts /\ (b_idling b' : R) = idle_time acts + t) as [P' I'].
        { cbn [with_times b_painting b_idling] in P, I. destruct (neqb (b_painting b) (nofZ 0)); cbn [snd b_painting b_idling with_times] in P, I; rewrite P, I; cbn [mixR nadd dbl numR car]; rewrite T1, T2; auto. }
        split; [split; [rewrite Pt; exact P'|split; [rewrite I'; cbn [idle_time]; lra|constructor; auto]]|].
        unfold split_due. rewrite Pt. cbn [idle_time]. cbn [with_times b_painting b_idling] in A. cbn [mixR nadd nmul nlt nle neqb nofZ wid dec sng dbl numR car] in A. rewrite T1, T2 in A.
        destruct (Req_bool_spec (painting_time acts) 0) as [K|K]; cbn [fst] in A; rewrite A; split.
        * intros H. apply ltb_true in H. left. lra.
        * intros [[_ H]|[H _]]; [apply Rlt_bool_true; lra|contradiction].
        * intros H. apply ltb_true in H. right. lra.
        * intros [[H _]|[_ H]]; [contradiction|apply Rlt_bool_true; lra].
  Qed.
  Lemma handled_told : forall acts (b b' : brush) a ds, told acts b -> handled b ds a b' ->
    told (fold_left report ds acts) b' /\ exists ds0 d, ds = ds0 ++ [d] /\ (a = true <-> asks (fold_left report ds acts) d).
  Proof.
    intros acts b b' a ds T H. destruct H as [d a b' C|d1 a1 b1 d a b' C1 C].
    - destruct (clocks_told _ _ _ _ _ T C) as [T' A]. split; [exact T'|]. exists [], d. auto.
    - destruct (clocks_told _ _ _ _ _ T C1) as [T1 _]. destruct (clocks_told _ _ _ _ _ T1 C) as [T' A]. split; [exact T'|]. exists [d1], d. auto.
  Qed.
  Lemma history_told : forall n (b b' : brush) w w' cs l acts, held_ok b -> history n b w cs l b' w' -> ~ In CNewStroke cs -> told acts b -> told (fold_left report (deeds l) acts) b'.
  Proof.
    intros n b b' w w' cs l acts Ho H. revert Ho acts. induction H as [b w|b w e a b1 w1 ds cs l b' w' Ed _ IH|b w c b1 w1 cs l b' w' N Er _ IH]; intros Ho acts Nn T.
    - exact T.
    - destruct (event_account _ _ _ _ _ _ _ _ Ho Ed) as (H1 & _ & K). destruct (handled_told _ _ _ _ _ T K) as [T1 _].
      unfold deeds. cbn [flat_map snd]. rewrite fold_left_app. apply IH; auto. intros X. apply Nn. right. exact X.
    - destruct (other_account _ _ _ _ _ _ N Er) as (A1 & A2 & A3). apply IH; [unfold held_ok; rewrite A1, A2; exact Ho|intros X; apply Nn; right; exact X|].
      destruct A3 as [P I]; [intros ->; apply Nn; left; reflexivity|]. unfold told. rewrite P, I. exact T.
  Qed.

  (** Theorem (C31), the rule: let a stroke begin, let the program do anything but
      begin another, then send an event.  The total painting time reported is the
      duration of the movements that painted.  stroke_to asks for a split exactly if
      the event restarted the brush or the split is due by the rule above. *)
  Theorem C31_rule_partial : forall n (b b1 b' : brush) w w1 w' cs l e a ds, held_ok b -> history n (new_stroke b) w cs l b1 w1 -> ~ In CNewStroke cs ->
    stroke_deeds L n b1 w1 e = Ok (Some (a, b', w', ds)) ->
    let all := deeds l ++ map snd ds in
    (total_painting_time b' : R) = painting_time (activity all) /\
    exists ds0 d, all = ds0 ++ [d] /\ (a = true <-> asks (activity all) d).
  Proof.
    intros n b b1 b' w w1 w' cs l e a ds Ho H Nn Ed all.
    assert (told [] (new_stroke b)) as T0 by (repeat split; constructor).
    assert (held_ok (new_stroke b)) as Ho' by exact Ho.
    pose proof (history_told _ _ _ _ _ _ _ _ Ho' H Nn T0) as T1. destruct (C32_conserved_partial _ _ _ _ _ _ _ Ho' H) as [_ H1].
    destruct (event_account _ _ _ _ _ _ _ _ H1 Ed) as (_ & _ & K). destruct (handled_told _ _ _ _ _ T1 K) as [T2 (ds0 & d & Eq & A)].
    unfold all, activity. rewrite fold_left_app. split; [exact (proj1 T2)|]. exists (deeds l ++ ds0), d. split; [rewrite Eq, app_assoc; reflexivity|exact A].
  Qed.
  (** Theorem (C31), while painting: a movement that paints asks only when the
      stroke has painted for more than 4 seconds plus 3 for full pressure. *)
  Theorem C31_painting : forall n (b b1 b' : brush) w w1 w' cs l e ds0 p g t ds, held_ok b -> history n (new_stroke b) w cs l b1 w1 -> ~ In CNewStroke cs ->
    stroke_deeds L n b1 w1 e = Ok (Some (true, b', w', ds)) -> map snd ds = ds0 ++ [Painted p g t] -> p_painted p = Some true ->
    4 + 3 * g_pressure g < (total_painting_time b' : R).
  Proof.
    intros n b b1 b' w w1 w' cs l e ds0 p g t ds Ho H Nn Ed El Ep. destruct (C31_rule_partial n b b1 b' w w1 w' cs l e true ds Ho H Nn Ed) as (Pt & ds1 & d & Eq & A).
    rewrite El, app_assoc in Eq. apply app_inj_tail in Eq. destruct Eq as [_ <-]. destruct A as [A _]. specialize (A eq_refl). rewrite Pt.
    revert A. rewrite El, app_assoc. unfold activity. rewrite fold_left_app. cbn [fold_left report asks]. rewrite Ep. cbn [split_due]. tauto.
  Qed.
End Time.

(** *** Cases *)
(** the brush of [C34_case] gets an event of 0.1 s: it paints, and all of the time is
    processed *)
Example C32_case_painted : exists b' w' l, history mathR 200 case_brush worldR [CStroke case_event] l b' w' /\
  held_ok case_brush /\ ((sum (map spent (deeds l)) + held b' = 1 / 10)%R).
Proof.
  destruct C45_case as (a & b' & w' & R & _). destruct (call_history mathR _ _ _ _ _ _ _ R) as (ds & Ed).
  assert (history mathR 200 case_brush worldR [CStroke case_event] [(a, map snd ds)] b' w') as H by (eapply h_event; [exact Ed|constructor]).
  assert (held_ok case_brush) as Ho by (split; [cbn; lra|intros N; destruct N; reflexivity]).
  exists b', w', [(a, map snd ds)]. split; [exact H|]. split; [exact Ho|]. destruct (C32_conserved_partial mathR _ _ _ _ _ _ _ Ho H) as [C _]. rewrite C.
  unfold held, duration, events. cbn -[Rdiv IZR]. destruct (Rle_dec (1 / 10) 0); lra.
Qed.
(** the same brush with five pixels to skip and half a second held back: an event
    three pixels further is held back *)
Definition holding_brush : brush stillR := with_skip case_brush (5%R : sng mixR) (0%R : sng mixR) (4%R : sng mixR) ((1 / 2)%R : sng mixR).
Example C32_case_held : exists b', history mathR 200 holding_brush worldR [CStroke case_event] [(false, [Held])] b' worldR /\
  held_ok holding_brush /\ held b' = (6 / 10)%R.
Proof.
  assert (held_ok holding_brush) as Ho by (split; cbn; intros; lra).
  set (b1 := with_skip holding_brush (nsub (b_skip holding_brush) (hypotf_ mathR (nsub (b_skip_x holding_brush) (ev_x case_event)) (nsub (b_skip_y holding_brush) (ev_y case_event)))) (ev_x case_event) (ev_y case_event) (nar (nadd (wid (b_skipped holding_brush)) (ev_dtime case_event)))).
  assert (history mathR 200 holding_brush worldR [CStroke case_event] [(false, [Held])] b1 worldR) as H.
  { apply (h_event mathR 200 holding_brush worldR case_event false b1 worldR [(case_event, Held)] [] []); [|constructor].
    unfold stroke_deeds. rewrite case_sanitise. cbn [obind]. cbv zeta.
    assert (nlt (dec 100 1000) (ev_dtime case_event) = false) as -> by (cbn -[IZR Rdiv]; apply Rlt_bool_false; lra). cbn [andb].
    unfold rest_deed, skip_input. assert (nlt (dec 1 1000) (wid (b_skip holding_brush)) = true) as -> by (cbn -[IZR Rdiv]; apply Rlt_bool_true; lra). cbv zeta.
    assert (nlt (dec 1 1000) (wid (nsub (b_skip holding_brush) (hypotf_ mathR (nsub (b_skip_x holding_brush) (ev_x case_event)) (nsub (b_skip_y holding_brush) (ev_y case_event))))) = true) as ->.
    { cbn -[IZR Rdiv]. apply Rlt_bool_true. replace ((0 - 3) * (0 - 3) + (4 - 4) * (4 - 4))%R with (3 * 3)%R by ring. rewrite sqrt_square by lra. lra. }
    assert (nlt (nofZ 5) (wid (nar (nadd (wid (b_skipped holding_brush)) (ev_dtime case_event)))) = false) as -> by (cbn -[IZR Rdiv]; apply Rlt_bool_false; lra).
    reflexivity. }
  exists b1. split; [exact H|]. split; [exact Ho|]. unfold held, b1. cbn -[IZR Rdiv]. lra.
Qed.
(** after a new stroke the rule applies to the first case *)
Example C31_case : exists b' w' a ds, stroke_deeds mathR 200 (new_stroke case_brush) worldR case_event = Ok (Some (a, b', w', ds)) /\
  history mathR 200 (new_stroke case_brush) worldR [] [] (new_stroke case_brush) worldR.
Proof.
  destruct C45_case as (a & b' & w' & R & _). destruct (call_history mathR _ _ _ _ _ _ _ R) as (ds & Ed). exists b', w', a, ds. split; [exact Ed|constructor].
Qed.

(** *** What the code does with C floats *)
(** C32 is false of the code: the held time is a float.  With half a second held
    back, an event a nanosecond later leaves the brush exactly as it was; its time
    is lost, and so is that of any number of such events. *)
Definition noisy : calls :=
  [set_base SET_TRACKING_NOISE (f_of_Z 10); CReset (M := mix64); CStroke (pen 0 0 0 10); CStroke (pen 0 0 0 10); CStroke (pen 0 0 0 500)].
Definition nanosecond : event mix64 := mkEvent (M := mix64) (f_of_Z 0) (f_of_Z 0) f0 f0 f0 (dlit 1 1000000000) f1 f0 f0 false.
Lemma held_same : forall {M : mixed} (L : mathlib M) {E : env M} n (b b' : brush E) w e t e1, sanitise L e = Ok (t, e1) -> nlt (dec 100 1000) (ev_dtime e1) = false ->
  skip_input L b (ev_x e1) (ev_y e1) (ev_dtime e1) = (b', None) ->
  b_skip b' = b_skip b -> b_skip_x b' = b_skip_x b -> b_skip_y b' = b_skip_y b -> b_skipped b' = b_skipped b -> run_call L n b w (CStroke e) = Ok (Some (b, w)).
Proof.
  intros M L E n b b' w e t e1 Es Hd K U1 U2 U3 U4. cbn [run_call]. unfold stroke_to. rewrite Es. cbn [obind]. rewrite Hd. cbn [andb]. unfold stroke_rest. rewrite K. cbn [obind option_map].
  apply skip_fields in K. rewrite U1, U2, U3, U4 in K. rewrite K. destruct b. reflexivity.
Qed.
Theorem C32_float_refuted : exists (b : brush toy) w, reachable toy_lib b /\ flt f0 (b_skipped b) = true /\ dlt (d_of_Z 0) (ev_dtime nanosecond) = true /\
  forall n, Nat.iter n (fun r => match r with Ok (Some (b, w)) => run_call toy_lib 20 b w (CStroke nanosecond) | r => r end) (Ok (Some (b, w))) = Ok (Some (b, w)).
Proof.
  destruct (after_ok 0 noisy (fun b w => flt f0 (b_skipped b) &&
    match sanitise toy_lib nanosecond with
    | Ok (t, e) => negb (dlt (dlit 100 1000) (ev_dtime e)) &&
        match skip_input toy_lib b (ev_x e) (ev_y e) (ev_dtime e) with
        | (b', None) => f_eqb (b_skip b') (b_skip b) && f_eqb (b_skip_x b') (b_skip_x b) && f_eqb (b_skip_y b') (b_skip_y b) && f_eqb (b_skipped b') (b_skipped b)
        | _ => false end
    | _ => false end) ltac:(vm_compute; reflexivity)) as (b & w & Es & T).
  apply andb_true_iff in T. destruct T as [T1 T]. exists b, w. split; [eapply session_reachable; [|exact Es]; lia|]. split; [exact T1|]. split; [vm_compute; reflexivity|].
  assert (run_call toy_lib 20 b w (CStroke nanosecond) = Ok (Some (b, w))) as R.
  { revert T. generalize toy_lib as L, nanosecond as e. intros L e T. destruct (sanitise L e) as [[t e1]| |] eqn:Es1; [|discriminate T|discriminate T]. apply andb_true_iff in T. destruct T as [T2 T]. apply negb_true_iff in T2.
    destruct (skip_input L b (ev_x e1) (ev_y e1) (ev_dtime e1)) as [b' [dt|]] eqn:K; [discriminate T|].
    apply andb_true_iff in T. destruct T as [T U4]. apply andb_true_iff in T. destruct T as [T U3]. apply andb_true_iff in T. destruct T as [U1 U2].
    apply f_eq in U1. apply f_eq in U2. apply f_eq in U3. apply f_eq in U4. apply (held_same L 20 b b' w e t e1); auto. }
  intros n. induction n as [|n IH]; [reflexivity|]. change (Nat.iter (S n) ?f ?x) with (f (Nat.iter n f x)). cbn beta. rewrite IH. exact R.
Qed.

(** C31 is false of the code: stroke_to asks for a split although the brush never
    painted anything, and asks again with the next event. *)
Definition idling : calls := [CReset (M := mix64); CStroke (pen 0 0 0 10); CNewStroke (M := mix64); CStroke (pen 0 0 0 600)].
Theorem C31_refuted : exists (b b1 b2 : brush toy) w w1 w2, reachable toy_lib b /\ b_reset b = false /\
  stroke_to toy_lib 20 b w (pen 1 0 0 600) = Ok (Some (true, b1, w1)) /\ stroke_to toy_lib 20 b1 w1 (pen 1 0 0 10) = Ok (Some (true, b2, w2)) /\
  w_surf w2 = [] /\ deq (total_painting_time b2) (d_of_Z 0) = true.
Proof.
  destruct (after_ok 0 idling (fun b w => negb (b_reset b) && match stroke_to toy_lib 20 b w (pen 1 0 0 600) with
    | Ok (Some (true, b1, w1)) => match stroke_to toy_lib 20 b1 w1 (pen 1 0 0 10) with
        | Ok (Some (true, b2, w2)) => match w_surf w2 with [] => deq (total_painting_time b2) (d_of_Z 0) | _ => false end
        | _ => false end
    | _ => false end) ltac:(vm_compute; reflexivity)) as (b & w & Es & T).
  apply andb_true_iff in T. destruct T as [T1 T]. apply negb_true_iff in T1.
  destruct (stroke_to toy_lib 20 b w (pen 1 0 0 600)) as [[[[[|] b1] w1]|]| |] eqn:E1; [|discriminate T..].
  destruct (stroke_to toy_lib 20 b1 w1 (pen 1 0 0 10)) as [[[[[|] b2] w2]|]| |] eqn:E2; [|discriminate T..].
  exists b, b1, b2, w, w1, w2. split; [eapply session_reachable; [|exact Es]; lia|]. split; [exact T1|]. split; [exact E1|]. split; [exact E2|]. destruct (w_surf w2); [|discriminate]. auto.
Qed.

Print Assumptions C32_conserved_partial.
Print Assumptions C32_float_refuted.
Print Assumptions C31_rule_partial.
Print Assumptions C31_painting.
Print Assumptions C31_refuted.
