(** Every event ends, and so does every program. *)
From Verif Require Import Base F32 F32Proofs Arith Color Mapping P_Mapping Settings Spectral Brush BrushProofs ReturnProofs StepFacts DabFrame BrushInst BrushToy P_Abort P_Limits P_Endless EaselNum EaselDab EaselStep EaselProofs EaselRun EndNum EaselEnd.
From Coq Require Import Reals Lra.
From Flocq Require Import Core.Core IEEE754.BinarySingleNaN.
Local Open Scope Z_scope.

Section Last.
  Context (L : mathlib mix64) {E : env mix64} (EM : easel_maths L) (HF : hypot_fair L).
  Variables a b s k : R.
  Hypotheses (Ha : (0 <= a <= 1000)%R) (Hb : (0 <= b <= 1000)%R) (Hs : (0 <= s <= 1000)%R) (Hk : (1 <= k <= 10000)%R).
  Context (FR : fair E) (Inv : e_surf E -> Prop).
  Context (HD : forall sf d, Inv sf -> drawable d -> exists p sf', e_draw E sf d = Ok (p, sf') /\ Inv sf').
  Variable q : Z.
  Hypotheses (Hq : (1 <= q <= 110001)%Z) (Hd : ((a + b) * k * (IZR q + 3) <= 300000)%R).
  Notation paced := (paced a b s). Notation measured := (measured a b s). Notation inner := (inner a b s k Inv q). Notation todo_left := (todo_left a b s k).
  Notation goal_near := (goal_near q). Notation rest := (rest a b s k).

  (** the number of dabs of an event is less than this *)
  Definition enough : R := (130 * ((a + b) * k * (IZR q + 3)) + 100 * s + 10)%R.

  Lemma start_end : forall n g p, aim g -> goal_near g -> under Inv p -> measured (b_settings (p_brush p)) ->
    zf (- (q + 1)) (st (p_brush p) STATE_X) (q + 1) -> zf (- (q + 1)) (st (p_brush p) STATE_Y) (q + 1) -> fin (p_left p : f64) -> (0 <= b2r (p_left p : f64) <= 5)%R ->
    (enough <= INR n)%R -> dabs L n g p <> Ok None.
  Proof.
    intros n g p A (Gx & Gy) Un Me Zx Zy Fl Hl Hn. assert (1 <= IZR q <= 110001)%R as Hq' by (split; apply IZR_le; lia).
    assert (0 <= (a + b) * k)%R as P0 by (apply Rmult_le_pos; lra). assert (0 <= (a + b) * k * (IZR q + 3))%R as P1 by (apply Rmult_le_pos; lra).
    destruct n as [|n]; [exfalso; unfold enough in Hn; cbn [INR] in Hn; lra|]. cbn [dabs]. destruct (pending p) eqn:Pe; [|discriminate].
    destruct (one_dab_ok L EM FR Inv HD g p A Un Pe) as (p' & O & U'). rewrite O. cbn [obind].
    destruct (one_dab_way L EM a b s Inv g p p' A Un Me Pe O) as (fr & c & Ff & Hf & _ & Ex & Ey & El & Hs' & Pc & Es & Ec & Mo').
    assert (IZR (reach q) = 4 * IZR q + 8)%R as Vr by (unfold reach; rewrite plus_IZR, mult_IZR; reflexivity). 
    destruct (zf_abs _ _ Gx) as (Fgx & Bgx). destruct (zf_abs _ _ Gy) as (Fgy & Bgy). destruct (zf_abs _ _ Zx) as (FX & BX). destruct (zf_abs _ _ Zy) as (FY & BY). rewrite plus_IZR in BX, BY.
    destruct (step_over _ _ fr (IZR q + 1) FX Fgx Ff BX ltac:(lra) ltac:(lra) Hf) as (FX' & DX). destruct (step_over _ _ fr (IZR q + 1) FY Fgy Ff BY ltac:(lra) ltac:(lra) Hf) as (FY' & DY).
    destruct (time_over _ fr Fl Ff ltac:(lra) Hf) as (Fl' & Hl').
    rewrite <- Ex in FX', DX. rewrite <- Ey in FY', DY. rewrite <- El in Fl', Hl'.
    assert (forall u v, Rabs u <= IZR q -> Rabs v <= IZR q + 1 -> Rabs (u - v) <= 2 * IZR q + 1)%R as Dif by (intros u v Hu Hv; pose proof (Rabs_triang u (- v)) as T; rewrite Rabs_Ropp in T; unfold Rminus; lra).
    pose proof (Dif _ _ Bgx BX) as D1. pose proof (Dif _ _ Bgy BY) as D2. clear Dif.
    assert (forall u v w, Rabs u <= IZR q -> Rabs (u - v) <= 514 / 512 * w + / 4 -> w <= 2 * IZR q + 1 -> Rabs v <= IZR (reach q))%R as Far.
    { intros u v w H1 H2 H3. replace v with (u + - (u - v))%R by ring. eapply Rle_trans; [apply Rabs_triang|]. rewrite Rabs_Ropp. lra. }
    pose proof (Far _ _ _ Bgx DX D1) as BX'. pose proof (Far _ _ _ Bgy DY D2) as BY'. clear Far.
    assert (fin (base c SET_RADIUS_LOGARITHMIC : f32)) as Fb.
    { assert (base c SET_RADIUS_LOGARITHMIC = base (p_brush p) SET_RADIUS_LOGARITHMIC) as -> by (unfold base; rewrite Es; reflexivity). pose proof (un_ready _ _ Un) as (Sh & Tn & _).
      apply (tuned_base (p_brush p) SET_RADIUS_LOGARITHMIC (in_range (-6) 6) Sh Tn). cbn; auto 50. }
    destruct (count_bound L EM HF a b s k Ha Hb Hs Hk c (p_brush p') (g_x g) (g_y g) (f_of_d (p_left p')) (p_todo p') (p_left p') Hs' Pc Fb Fgx Fgy FX' FY') as (Pc' & Ft' & Ht'); auto; try lra.
    destruct (count_states L _ _ _ _ _ _ Ec) as (Os & K).
    assert (st (p_brush p') STATE_X = st c STATE_X) as KX by (apply K; discriminate). assert (st (p_brush p') STATE_Y = st c STATE_Y) as KY by (apply K; discriminate).
    apply (inner_end L EM HF a b s k Ha Hb Hs Hk FR Inv HD q Hq Hd); [exact A|split; assumption| |].
    - split.
      + exact U'.
      + destruct Os as (-> & _). cbn. rewrite Es. exact Me.
      + exact Mo'.
      + rewrite KX. apply abs_zf; assumption.
      + rewrite KY. apply abs_zf; assumption.
      + split; assumption.
      + split; [exact Ft'|]. unfold EaselEnd.todo_left. rewrite KX, KY. exact Ht'.
    - unfold EaselEnd.todo_left. rewrite KX, KY. unfold EaselEnd.rest. rewrite S_INR in Hn. unfold enough in Hn.
      set (ax := Rabs (b2r (g_x g : f32) - b2r (st c STATE_X : f32))) in *. set (ay := Rabs (b2r (g_y g : f32) - b2r (st c STATE_Y : f32))) in *.
      assert (ax + ay <= 41 / 10 * (IZR q + 3))%R by lra. assert (Rmax 0 (b2r (p_left p' : f64)) <= 20)%R by (apply Rmax_lub; lra).
      assert ((a + b) * k * (ax + ay) <= (a + b) * k * (41 / 10 * (IZR q + 3)))%R by (apply Rmult_le_compat_l; lra). assert (s * Rmax 0 (b2r (p_left p' : f64)) <= s * 20)%R by (apply Rmult_le_compat_l; lra).
      replace (5 * (a + b) * k * (ax + ay))%R with (5 * ((a + b) * k * (ax + ay)))%R by ring. lra.
  Qed.

  (** *** Between two events *)
  Record going (c : brush E) : Prop := {
    go_paced : paced c; go_x : zf (- (q + 1)) (st c STATE_X) (q + 1); go_y : zf (- (q + 1)) (st c STATE_Y) (q + 1); go_time : ahead (b_skipped c : f32) }.

  Lemma paint_end : forall n (c : brush E) w g (dt : f64), aim g -> goal_near g -> rested c -> Inv (w_surf w) -> measured (b_settings c) -> going c ->
    is_nan dt = true \/ (fin dt /\ (0 <= b2r dt <= 5)%R) -> (enough <= INR n)%R ->
    exists x c' w', paint_to L n c w g dt = Ok (Some (x, c', w')) /\ rested c' /\ Inv (w_surf w') /\ going c' /\ b_settings c' = b_settings c.
  Proof.
    intros n c w g dt A G R HI Me [Pc Zx Zy Ah] Hdt Hn. destruct (paint_to_ok L EM FR Inv HD n c w g dt A R HI) as (r & Er & Hr). rewrite Er.
    pose proof (re_ready _ R) as Rd. pose proof (proj1 Rd) as Sh.
    unfold paint_to in Er. apply obind_ok in Er. destruct Er as (pr & Ed & Er). unfold paint_dabs in Ed. cbv zeta in Ed. change (@nar mix64) with f_of_d in Ed. destruct (count_dabs_to L c (g_x g) (g_y g) _) as [todo c1] eqn:Ec.
    destruct (count_states L _ _ _ _ _ _ Ec) as (Os & K). set (p0 := mkProgress c1 w None dt (st c STATE_PARTIAL_DABS) todo []) in *.
    assert (under Inv p0) as U0.
    { destruct R as [_ Pn Wh Pt]. constructor; cbn [p0 p_brush p_world p_moved p_todo p_painted p_left p_log].
      - apply (ready_keep c); auto; [eapply shape_os; [exact Os|apply Rd]| | |].
        + destruct Os as (-> & _). reflexivity.
        + destruct Os as (-> & _). apply Rd.
        + apply K. discriminate.
      - unfold pen_near. rewrite !K by discriminate. exact Pn.
      - exact HI.
      - exact Pt.
      - apply (count_upto L EM _ _ _ _ _ _ Ec).
      - left. unfold near_x. rewrite !K by discriminate. exact Wh. }
    assert (pr <> None) as Np.
    { intros ->. destruct Hdt as [N|(Fd & Hd')].
      - (* no time at all: no dabs *)
        assert (is_nan (f_of_d dt) = true) as N' by (destruct dt; try discriminate N; reflexivity). apply (count_nan L EM) in Ec; [|exact N'].
        assert (pending p0 = false) as Pe.
        { unfold pending, p0. cbn [p_moved p_todo]. rewrite Ec. change (@nle (dbl mix64)) with dle. change (@nofZ (dbl mix64) 1) with (d_of_Z 1). change (@wid mix64) with d_of_f. change (@nadd (sng mix64)) with fadd.
          destruct (re_partial _ R) as (Fp & Hp). destruct (zf_Z 0) as ((F0 & _) & V0); [lia|]. destruct (add_large (st c STATE_PARTIAL_DABS) (f_of_Z 0) Fp F0) as (Fa & Va); [rewrite V0; simpl; rewrite Rplus_0_r, Rabs_pos_eq by lra; unfold large; lra|].
          rewrite V0 in Va. simpl in Va. rewrite Rplus_0_r, rnd32_id in Va by apply rep32_b2r. destruct (d_of_f_exact _ Fa) as (Vd & Gd). destruct (zd_Z 1) as ((G1 & _) & W1); [lia|].
          rewrite dle_spec, Vd, Va, W1 by auto. apply Rle_bool_false. simpl. apply Hp. }
        destruct n; cbn [dabs] in Ed; rewrite Pe in Ed; discriminate Ed.
      - revert Ed. apply start_end; auto.
        + cbn [p0 p_brush]. destruct Os as (-> & _). exact Me.
        + cbn [p0 p_brush]. rewrite K by discriminate. exact Zx.
        + cbn [p0 p_brush]. rewrite K by discriminate. exact Zy. }
    destruct pr as [p|]; [|destruct (Np eq_refl)]. clear Np. destruct (dabs_ok L EM FR Inv HD n g p0 A U0) as (r' & Ed' & Up). rewrite Ed in Ed'. apply Ok_inj in Ed'. subst r'. destruct (Up p eq_refl) as (Un & Pe). clear Up.
    pose proof (dabs_frame L _ _ _ _ Ed) as Fr. apply obind_ok in Er. destruct Er as ((x, c2) & E2 & Er). apply Ok_inj in Er. subst r. exists x, c2, (p_world p). split; [reflexivity|].
    destruct (Hr _ _ _ eq_refl) as (R2 & I2). split; [exact R2|]. split; [exact I2|].
    destruct (paint_rest_frame L _ _ _ _ _ E2) as (t1 & t2 & F2). cbn [p0 p_brush] in Fr.
    assert (b_settings (p_brush p) = b_settings c) as Sp. { rewrite Fr. cbn. destruct Os as (-> & _). reflexivity. }
    assert (b_settings c2 = b_settings c) as S2 by (rewrite F2; cbn; exact Sp).
    assert (b_skipped c2 = b_skipped c) as K2. { rewrite F2. cbn. rewrite Fr. cbn. destruct Os as (-> & _). reflexivity. }
    split; [|exact S2].
    (* the last step *)
    unfold paint_rest in E2. apply obind_ok in E2. destruct E2 as (c3 & Eu & E2). destruct (stroke_split _ _ _ _ _) as [x' c4] eqn:Esp. apply Ok_inj in E2. injection E2 as -> ->.
    assert (exists t1 t2, c2 = with_times (set_st c3 STATE_PARTIAL_DABS (fadd (p_moved p) (p_todo p))) t1 t2) as (u1 & u2 & E3).
    { clear - Esp. unfold stroke_split in Esp. cbv zeta in Esp. destruct (match p_painted p with Some v => v | None => _ end); [injection Esp as _ <-; eauto|].
      match type of Esp with (if ?c then _ else _) = _ => destruct c end; injection Esp as _ <-; eauto. }
    destruct Un as [Rp Pp Ip (Fm & Hm) Ut Wp]. destruct A as (Ax & Ay & Ap & Av). destruct G as (Gx & Gy).
    assert (near_x 331000 13 (p_brush p)) as (Zx1 & Zy1 & Zp1).
    { destruct Wp as [(A' & B & C)|(_ & Wp)]; [|exact Wp]. split; [eapply zf_weak; [exact A'|lia|lia]|]. split; [eapply zf_weak; [exact B|lia|lia]|]. eapply zf_weak; [exact C|lia|lia]. }
    assert (zf (-13) (fadd (st (p_brush p) STATE_PRESSURE) (sp_dpressure (last_step p g))) 13) as Zq.
    { cbn [last_step step_towards sp_dpressure]. change (@nsub (sng mix64)) with fsub. eapply zf_weak; [apply (move_all 0 13 0 1); auto; lia|lia|lia]. }
    destruct (update_ok L EM (p_brush p) (last_step p g) Rp Zq Av) as (c3' & Eu' & _ & _ & _ & Ex & Ey & _). rewrite Eu in Eu'. apply Ok_inj in Eu'. subst c3'.
    assert (paced c3) as Pc3 by (apply (update_paced L EM a b s (p_brush p) c3 (last_step p g)); auto; rewrite Sp; exact Me).
    assert (forall i, i <> STATE_PARTIAL_DABS -> st c2 i = st c3 i) as Q. { intros i Hi. rewrite E3. transitivity (st (set_st c3 STATE_PARTIAL_DABS (fadd (p_moved p) (p_todo p))) i); [reflexivity|]. apply st_set_other. auto. }
    split.
    - destruct Pc3 as [P1 P2 P3 P4 P5]. split; rewrite Q by discriminate; assumption.
    - rewrite Q, Ex by discriminate. apply (move_full 331000 q _ (g_x g)); auto; try lia. apply (sub_fin 331000 q); auto; lia.
    - rewrite Q, Ey by discriminate. apply (move_full 331000 q _ (g_y g)); auto; try lia. apply (sub_fin 331000 q); auto; lia.
    - rewrite K2. exact Ah.
  Qed.

  (** *** Events *)
  (** the position stays within [q]: there is no tracking noise and the events stay
      within [m], or [q] is large enough for everything *)
  Variable m : Z.
  Hypothesis (Hm : (0 <= m <= 65536)%Z).
  Definition calm (ms : list (mapping (sng mix64))) : Prop :=
    q = 110001 \/ (m + 1 <= q /\ forall mp, nth_error ms SET_TRACKING_NOISE = Some mp -> (b2r (mp_base mp : f32) <= 0)%R).

  Lemma calm_base : forall c : brush E, shape c -> calm (b_settings c) -> q = 110001 \/ (m + 1 <= q /\ (b2r (base c SET_TRACKING_NOISE : f32) <= 0)%R).
  Proof.
    intros c Sh [H|(H1 & H2)]; [left; exact H|right]. split; [exact H1|]. unfold base. destruct (nth_error (b_settings c) SET_TRACKING_NOISE) as [mp|] eqn:N; [apply H2; reflexivity|].
    destruct (zf_Z 0) as (_ & V); [lia|]. change (@nofZ (sng mix64)) with f_of_Z. rewrite V. simpl. lra.
  Qed.

  Lemma track_near : forall (c : brush E) x y dt x' y' c', rested c -> calm (b_settings c) -> zf (- m) x m -> zf (- m) y m -> track L c x y dt = Ok (x', y', c') ->
    zf (- q) x' q /\ zf (- q) y' q /\ b_states c' = b_states c /\ b_settings c' = b_settings c /\ b_skipped c' = b_skipped c.
  Proof.
    intros c x y dt x' y' c' R Ca Hx Hy T.
    assert (b_states c' = b_states c /\ b_settings c' = b_settings c /\ b_skipped c' = b_skipped c) as Keep.
    { pose proof (track_fields L _ _ _ _ _ _ _ T) as F. split; [rewrite F; reflexivity|]. split; [rewrite F; reflexivity|]. clear F.
      unfold track in T. cbv zeta in T. apply obind_ok in T. destruct T as (((x1, y1), c1) & E1 & T). apply Ok_inj in T. injection T as _ _ <-.
      destruct (truthy _); [|apply Ok_inj in E1; injection E1 as _ _ <-; reflexivity]. destruct (nlt _ _); [|apply Ok_inj in E1; injection E1 as _ _ <-; reflexivity].
      apply obind_ok in E1. destruct E1 as ((r1, g1) & _ & E1). apply obind_ok in E1. destruct E1 as ((r2, g2) & _ & E1). apply Ok_inj in E1. injection E1 as _ _ <-. reflexivity. }
    cut (zf (- q) x' q /\ zf (- q) y' q); [intros (H1 & H2); split; [exact H1|split; [exact H2|exact Keep]]|]. clear Keep.
    pose proof (re_ready _ R) as (Sh & Tn & _). destruct (calm_base c Sh Ca) as [Eq|(Mq & Bn)].
    { rewrite Eq. assert (zf (-65536) x 65536) as Hx' by (eapply zf_weak; [exact Hx|lia|lia]). assert (zf (-65536) y 65536) as Hy' by (eapply zf_weak; [exact Hy|lia|lia]).
      destruct (track_ok L EM FR c x y dt R Hx' Hy') as (x2 & y2 & c2 & T2 & Z1 & Z2 & _). rewrite T in T2. apply Ok_inj in T2. injection T2 as <- <- _. split; assumption. }
    assert (forall i P, In (i, P) base_ranges -> P (base c i)) as B by (intros; eapply tuned_base; eauto).
    unfold track in T. cbv zeta in T. apply obind_ok in T. destruct T as (((x1, y1), c1) & E1 & T). apply Ok_inj in T. injection T as <- <- _.
    assert (x1 = x /\ y1 = y /\ c1 = c) as (-> & -> & ->).
    { destruct (truthy _); [|apply Ok_inj in E1; injection E1 as <- <- <-; auto]. 
      destruct (base_radius_ok L EM _ (B SET_RADIUS_LOGARITHMIC (in_range (-6) 6) ltac:(cbn; auto 50))) as (Fe & He). destruct (B SET_TRACKING_NOISE (in_range (-1000) 12) ltac:(cbn; auto 50)) as (Fn & Hn). simpl in He, Hn.
      change (@nmul (sng mix64)) with fmul in E1. change (@nlt (dbl mix64)) with dlt in E1. change (@wid mix64) with d_of_f in E1. change (@dec mix64) with dlit in E1.
      destruct (zf_mul (-729000) 0 _ _ Fe Fn) as ((Fm & Hm') & _); [split; lia|simpl; nra|]. set (no := fmul _ _) in *. simpl in Hm'.
      assert (dlt (dlit 1 1000) (d_of_f no) = false) as Z.
      { destruct thousandth as (Fk & Hk'). destruct (d_of_f_exact no Fm) as (Vn & Gn). rewrite dlt_spec, Vn by auto. apply Rlt_bool_false. lra. }
      rewrite Z in E1. apply Ok_inj in E1. injection E1 as <- <- <-. auto. }
    destruct (filter_one L (base c SET_SLOW_TRACKING) (f_of_d (dmul (d_of_Z 100) dt)) (B SET_SLOW_TRACKING nonposf ltac:(cbn; auto 50))) as (Ff & Vf). change (@nmul (dbl mix64)) with dmul. change (@nofZ (dbl mix64)) with d_of_Z. change (@nar mix64) with f_of_d.
    set (f := filter_fac L (base c SET_SLOW_TRACKING) (f_of_d (dmul (d_of_Z 100) dt)) : f32) in *.
    assert (forall v t : f32, zf (-110002) v 110002 -> zf (- m) t m -> zf (- q) (fadd v (fmul (fsub t v) f)) q) as Q.
    { intros v t Hv Ht. destruct Hv as (Fv & Hv') eqn:Ev. clear Ev. destruct (zf_abs _ _ Ht) as (Ft & Bt). assert (IZR m <= 65536)%R as Mm by (apply IZR_le; lia). apply Rabs_le_inv in Bt. simpl in Hv'.
      destruct (zf_sub (-2097152) 2097152 t v Ft Fv) as (Zs & _); [split; lia|simpl; lra|]. destruct (mul_one_r _ _ _ f Zs ltac:(split; lia) Ff Vf) as (Fm & Vm).
      eapply zf_weak; [apply (move_full 110002 m v t); auto; try lia; split; auto|lia|lia]. }
    destruct (re_where _ R) as (Zx & Zy & _). split; apply Q; assumption.
  Qed.

  Lemma reset_going : forall (c c' : brush E) x y pr, has_states c -> zf (- q) x q -> zf (- q) y q -> do_reset c x y pr = Ok c' -> going c' /\ b_settings c' = b_settings c.
  Proof.
    intros c c' x y pr Hc Zx Zy O. unfold do_reset in O. apply obind_ok in O. destruct O as (c1 & E1 & O). apply obind_ok in O. destruct O as ((r, g) & _ & O). cbv zeta in O. apply Ok_inj in O.
    assert (b_states c1 = upd (repeat (f_of_Z 0) STATES_COUNT) STATE_FLIP (f_of_Z (-1)) /\ b_skipped c1 = f_of_Z 0 /\ b_settings c1 = b_settings c) as (Es & Ek & Ese).
    { unfold brush_reset in E1. cbv zeta in E1. cbn [with_reset with_states with_skip b_buckets] in E1. destruct (b_buckets c) as [mem|].
      - match type of E1 with (if ?c then _ else _) = _ => destruct c end; [apply obind_ok in E1; destruct E1 as (m' & _ & E1)|]; apply Ok_inj in E1; rewrite <- E1; split; [reflexivity|split; reflexivity|reflexivity|split; reflexivity].
      - apply Ok_inj in E1. rewrite <- E1. split; [reflexivity|split; reflexivity]. }
    assert (forall i, i <> STATE_FLIP -> st c1 i = f_of_Z 0) as St.
    { intros i Hi. unfold st. rewrite Es. clear - Hi.
      assert (forall (l : list f32) j v, j <> i -> nth i (upd l j v) (f_of_Z 0) = nth i l (f_of_Z 0)) as K.
      { clear. intros l. revert i. induction l as [|x l IH]; intros i j v Hj; [destruct j; reflexivity|]. destruct j as [|j], i as [|i]; cbn [upd nth]; auto; [destruct (Hj eq_refl)]. }
      change (@nofZ (sng mix64) 0) with (f_of_Z 0). refine (eq_trans (K _ _ _ _) _); [auto|]. apply nth_repeat. }
    assert (has_states (with_random (with_rng c1 g) r)) as H0. { unfold has_states. cbn. rewrite Es, upd_length, repeat_length. reflexivity. }
    set (c2 := with_random (with_rng c1 g) r) in *. set (c3 := set_st c2 STATE_X x) in *. set (c4 := set_st c3 STATE_Y y) in *. set (c5 := set_st c4 STATE_PRESSURE pr) in *. set (c6 := set_st c5 STATE_ACTUAL_X _) in *. set (c7 := set_st c6 STATE_ACTUAL_Y _) in *.
    assert (forall i, i <> STATE_X -> i <> STATE_Y -> i <> STATE_PRESSURE -> i <> STATE_ACTUAL_X -> i <> STATE_ACTUAL_Y -> i <> STATE_STROKE -> i <> STATE_FLIP -> st c' i = f_of_Z 0) as Zero.
    { intros i N1 N2 N3 N4 N5 N6 N7. rewrite <- O. unfold c7, c6, c5, c4, c3. rewrite !st_set_other by auto. transitivity (st c1 i); [reflexivity|]. apply St. exact N7. }
    destruct (zf_Z 0) as ((F0 & _) & V0); [lia|].
    split.
    - split.
      + split; rewrite Zero by discriminate; rewrite V0; (split; [exact F0|simpl; try lra]).
      + rewrite <- O. unfold c7, c6, c5, c4. rewrite !st_set_other by discriminate. unfold c3. rewrite st_set_same by (first [exact H0|vm_compute; lia]). eapply zf_weak; [exact Zx|lia|lia].
      + rewrite <- O. unfold c7, c6, c5. rewrite !st_set_other by discriminate. unfold c4. rewrite st_set_same by (first [apply has_set; exact H0|vm_compute; lia]). eapply zf_weak; [exact Zy|lia|lia].
      + rewrite <- O. change (ahead (b_skipped c1 : f32)). rewrite Ek. apply ahead_pos; [exact F0|]. change (0 <= b2r (f_of_Z 0))%R. rewrite V0. simpl. lra.
    - rewrite <- O. exact Ese.
  Qed.

  Lemma skip_ahead : forall (c c' : brush E) x y (dt : f64) go, ahead dt -> ahead (b_skipped c : f32) -> skip_input L c x y dt = (c', go) ->
    ahead (b_skipped c' : f32) /\ (forall t, go = Some t -> ahead (t : f64)).
  Proof.
    intros c c' x y dt go Ad As H. unfold skip_input in H. cbv zeta in H. change (@nar mix64) with f_of_d in H. change (@wid mix64) with d_of_f in H. change (@nadd (dbl mix64)) with dadd in H.
    assert (ahead (f_of_d (dadd (d_of_f (b_skipped c)) dt))) as A1 by (apply ahead_nar, ahead_add; [apply ahead_wid; exact As|exact Ad]).
    assert (ahead (f_of_Z 0)) as A0. { destruct (zf_Z 0) as ((F0 & _) & V0); [lia|]. apply ahead_pos; [exact F0|]. change (0 <= b2r (f_of_Z 0))%R. rewrite V0. simpl. lra. }
    destruct (nlt _ _).
    - match type of H with (if ?c then _ else _) = _ => destruct c end; injection H as <- <-; (split; [|intros t Ht]).
      + exact A1.
      + discriminate Ht.
      + exact A0.
      + injection Ht as <-. apply ahead_wid. exact A1.
    - injection H as <- <-. split; [exact As|]. intros t Ht. injection Ht as <-. exact Ad.
  Qed.

  Definition close_by (e : event mix64) : Prop := zf (- m) (ev_x e) m /\ zf (- m) (ev_y e) m.
  Lemma rest_end : forall n (c : brush E) w t e, rested c -> Inv (w_surf w) -> clean e -> close_by e -> ahead (ev_dtime e : f64) -> measured (b_settings c) -> calm (b_settings c) -> going c -> (enough <= INR n)%R ->
    exists x c' w', stroke_rest L n c w t e = Ok (Some (x, c', w')) /\ rested c' /\ Inv (w_surf w') /\ going c' /\ b_settings c' = b_settings c.
  Proof.
    intros n c w t e R HI (Zx & Zy & Zp & Zv) (Cx & Cy) At Me Ca Go Hn. unfold stroke_rest. destruct (skip_input L _ _ _ _) as [c1 go] eqn:E1.
    destruct (skip_ahead _ _ _ _ _ _ At (go_time _ Go) E1) as (A1 & A2). apply skip_fields in E1.
    assert (b_states c1 = b_states c /\ b_settings c1 = b_settings c) as (K1 & K2) by (rewrite E1; split; reflexivity).
    assert (rested c1) as R1. { rewrite E1. destruct R as [(S1 & S2 & S3 & S4) Pn Wh Pt]. split; [split; [exact S1|split; [exact S2|split; [exact S3|exact S4]]]|exact Pn|exact Wh|exact Pt]. }
    clear E1 R. rewrite <- K2 in Me, Ca |- *.
    assert (going c1) as G1. { destruct Go as [[P1 P2 P3 P4 P5] Gx Gy _]. unfold st in *. rewrite <- K1 in *. split; [split; assumption|exact Gx|exact Gy|exact A1]. }
    clear Go K1 K2 A1. destruct go as [dt|]; [|eexists _, _, _; split; [reflexivity|]; auto].
    specialize (A2 dt eq_refl).
    destruct (track_ok L EM FR c1 (ev_x e) (ev_y e) dt R1 Zx Zy) as (x & y & c2 & Et & Zx' & Zy' & R2). rewrite Et. cbn [obind].
    destruct (track_near c1 _ _ dt x y c2 R1 Ca Cx Cy Et) as (Qx & Qy & K1 & K2 & K3').
    rewrite <- K2 in Me |- *. assert (going c2) as G2. { destruct G1 as [[P1 P2 P3 P4 P5] Gx Gy Gt]. unfold st in *. rewrite <- K1 in *. rewrite <- K3' in Gt. split; [split; assumption|exact Gx|exact Gy|exact Gt]. }
    change (@nlt (dbl mix64)) with dlt. change (@nofZ (dbl mix64)) with d_of_Z. destruct (dlt (d_of_Z 5) dt) eqn:Late; cbn [orb]; [|destruct (b_reset c2); cbn [orb]].
    - destruct (do_reset_ok FR c2 x y (ev_pressure e) (re_ready _ R2) Zx' Zy' Zp) as (c3 & E3 & R3). rewrite E3. cbn [obind]. destruct (reset_going c2 c3 x y _ (proj1 (proj1 (re_ready _ R2))) Qx Qy E3) as (G3 & S3). eexists _, _, _. split; [reflexivity|]. auto.
    - destruct (do_reset_ok FR c2 x y (ev_pressure e) (re_ready _ R2) Zx' Zy' Zp) as (c3 & E3 & R3). rewrite E3. cbn [obind]. destruct (reset_going c2 c3 x y _ (proj1 (proj1 (re_ready _ R2))) Qx Qy E3) as (G3 & S3). eexists _, _, _. split; [reflexivity|]. auto.
    - apply paint_end; auto.
      + split; [exact Zx'|]. split; [exact Zy'|]. split; [exact Zp|exact Zv].
      + split; assumption.
      + apply ahead_split; assumption.
  Qed.

  (** events that stay within [m], or have no proper position *)
  Definition event_near (e : event mix64) : Prop := garbage e \/ close_by e.

  Lemma tenth : ahead (dlit 1 10000 : f64).
  Proof. vm_compute. reflexivity. Qed.
  Lemma sanitise_ahead : forall (e e' : event mix64) t, event_ok e -> event_near e -> sanitise L e = Ok (t, e') -> ahead (ev_dtime e' : f64) /\ close_by e'.
  Proof.
    intros e e' t He Hn H. split.
    - unfold sanitise in H. apply obind_ok in H. destruct H as (t' & _ & H). cbv zeta in H. match type of H with (if ?c then _ else _) = _ => destruct c; [|discriminate H] end. apply Ok_inj in H. injection H as _ H. subst e'.
      change (@nle (dbl mix64)) with dle. change (@nofZ (dbl mix64) 0) with (d_of_Z 0). change (@dec mix64) with dlit.
      assert (ahead ((if dle (ev_dtime e) (d_of_Z 0) then dlit 1 10000 else ev_dtime e) : f64)) as A. { destruct (dle (ev_dtime e) (d_of_Z 0)) eqn:D; [exact tenth|apply ahead_after; exact D]. }
      match goal with |- context [if ?c then mkEvent _ _ _ _ _ _ _ _ _ _ else _] => destruct c end; exact A.
    - assert (zf (- m) (f_of_Z 0) m) as Z0 by (eapply zf_weak; [apply zf_Z; lia|lia|lia]).
      destruct Hn as [Ga|(C1 & C2)]; [|destruct (sanitise_form L _ _ _ H) as [(A1 & A2 & _)|(A1 & A2 & _)]; split; rewrite ?A1, ?A2; assumption].
      destruct (sanitise_form L _ _ _ H) as [(A1 & A2 & _)|(A1 & A2 & _)]; [split; rewrite ?A1, ?A2; assumption|]. exfalso. apply Ga.
      destruct He as (Nx & Ny & _). assert (~ far (ev_x e) (ev_y e)) as Nf by (intros (F1 & F2 & B1 & B2 & _); apply Ga; auto).
      destruct (sanitise_iff L (em_c L EM) e Nx Ny) as (_ & S). destruct (S Nf) as (t2 & e2 & Es & (Fx & Fy & B1 & B2)). rewrite H in Es. apply Ok_inj in Es. injection Es as <- <-. rewrite A1 in Fx, B1. rewrite A2 in Fy, B2.
      split; [exact Fx|]. split; [exact Fy|]. split; lra.
  Qed.

  Theorem stroke_end : forall n (c : brush E) w e, rested c -> Inv (w_surf w) -> event_ok e -> event_near e -> measured (b_settings c) -> calm (b_settings c) -> going c -> (enough <= INR n)%R ->
    exists x c' w', stroke_to L n c w e = Ok (Some (x, c', w')) /\ rested c' /\ Inv (w_surf w') /\ going c' /\ b_settings c' = b_settings c.
  Proof.
    intros n c w e R HI He Hc Me Ca Go Hn. destruct (sanitise_clean L EM e He) as (t & e1 & Es & C1). destruct (sanitise_ahead _ _ _ He Hc Es) as (A1 & N1). unfold stroke_to. rewrite Es. cbn [obind]. clear Es He Hc.
    match goal with |- context [if ?c then _ else _] => destruct c end; [|apply rest_end; auto]. destruct C1 as (Zx & Zy & Zp & Zv).
    assert (event_ok (silent_event e1)) as He2.
    { split; [reflexivity|]. split; [reflexivity|]. left. split; [exact Zx|]. split; [exact Zy|]. split; [|exact Zv]. destruct (zf_Z 0) as ((F & _) & V); [lia|]. split; [exact F|]. cbn [silent_event ev_pressure]. change (@nofZ (sng mix64)) with f_of_Z. rewrite V. simpl. lra. }
    destruct (sanitise_clean L EM (silent_event e1) He2) as (t2 & e2 & Es2 & C2). destruct (sanitise_ahead _ _ _ He2 (or_intror N1) Es2) as (A2 & N2). rewrite Es2. cbn [obind].
    destruct (rest_end n c w t2 e2 R HI C2 N2 A2 Me Ca Go Hn) as (x & c1 & w1 & -> & R1 & I1 & G1 & S1). cbn [obind]. rewrite <- S1 in Me, Ca |- *.
    apply rest_end; auto; [split; [exact Zx|split; [exact Zy|split; [exact Zp|exact Zv]]]|exact tenth].
  Qed.
End Last.
