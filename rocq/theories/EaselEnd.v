(** Every event ends: the number of dabs is bounded. *)
From Verif Require Import Base F32 F32Proofs Arith Color Mapping P_Mapping Settings Spectral Brush BrushProofs ReturnProofs StepFacts BrushInst BrushToy P_Abort P_Limits P_Endless EaselNum EaselDab EaselStep EaselProofs EaselRun EndNum.
From Coq Require Import Reals Lra.
From Flocq Require Import Core.Core IEEE754.BinarySingleNaN.
Local Open Scope Z_scope.

(** hypotf is about right: at most the sum of the sides, up to a thousandth *)
Definition hypot_fair (L : mathlib mix64) : Prop :=
  forall a b : f32, fin a -> fin b -> (Rabs (b2r a) <= 2000000)%R -> (Rabs (b2r b) <= 2000000)%R ->
  fin (hypotf_ L a b : f32) /\ (0 <= b2r (hypotf_ L a b : f32) <= 1001 / 1000 * (Rabs (b2r a) + Rabs (b2r b)))%R.

Section End.
  Context (L : mathlib mix64) {E : env mix64} (EM : easel_maths L) (HF : hypot_fair L).
  (** dabs per actual radius, per basic radius and per second: upper bounds *)
  Variables a b s k : R.
  Hypotheses (Ha : (0 <= a <= 1000)%R) (Hb : (0 <= b <= 1000)%R) (Hs : (0 <= s <= 1000)%R) (Hk : (1 <= k <= 10000)%R).

  Record paced (c : brush E) : Prop := {
    pc_actual : fin (st c STATE_DABS_PER_ACTUAL_RADIUS : f32) /\ (-1000 <= b2r (st c STATE_DABS_PER_ACTUAL_RADIUS : f32) <= a)%R;
    pc_basic : fin (st c STATE_DABS_PER_BASIC_RADIUS : f32) /\ (-1000 <= b2r (st c STATE_DABS_PER_BASIC_RADIUS : f32) <= b)%R;
    pc_second : fin (st c STATE_DABS_PER_SECOND : f32) /\ (0 <= b2r (st c STATE_DABS_PER_SECOND : f32) <= s)%R;
    pc_radius : fin (st c STATE_ACTUAL_RADIUS : f32) /\ (b2r (st c STATE_ACTUAL_RADIUS : f32) = 0 \/ 2 / 10 <= b2r (st c STATE_ACTUAL_RADIUS : f32))%R;
    pc_ratio : fin (st c STATE_ACTUAL_ELLIPTICAL_DAB_RATIO : f32) /\ (b2r (st c STATE_ACTUAL_ELLIPTICAL_DAB_RATIO : f32) <= 1)%R }.

  (** what is left to do: an upper bound of the dabs to go *)
  Definition rest (dx dy l : R) : R := (5 * (a + b) * k * (Rabs dx + Rabs dy) + s * Rmax 0 l)%R.

  Lemma over_radius : forall D r n : f32, fin D -> (0 <= b2r D <= 3000000)%R -> fin r -> (2 / 10 <= b2r r)%R -> forall m, (0 <= m <= 1000)%R -> fin n -> (-1000 <= b2r n <= m)%R ->
    fin (fmul (fdiv D r) n) /\ (Rabs (b2r (fmul (fdiv D r) n)) <= 100000000000)%R /\ (b2r (fmul (fdiv D r) n) <= 5001 / 1000 * (m * b2r D) + / 1000000)%R.
  Proof.
    intros D r n FD HD Fr Hr m Hm Fn Hn. pose proof tiny_small as Ti. assert (large > 1000000000000)%R as La by (unfold large; lra).
    assert (0 <= b2r D / b2r r <= 5 * b2r D)%R as Q.
    { assert (0 < / b2r r <= 5)%R. { split; [apply Rinv_0_lt_compat; lra|]. replace 5%R with (/ (2 / 10))%R by lra. apply Rinv_le; lra. } unfold Rdiv. nra. }
    destruct (div_large D r FD) as (Fq & Vq); [lra|rewrite Rabs_pos_eq; lra|].
    assert (0 <= b2r (fdiv D r))%R as Q0 by (rewrite Vq; apply rnd32_ge_r; [apply (rep32_IZR 0); lia|simpl; lra]).
    pose proof (rnd32_up _ _ (proj2 Q) ltac:(lra)) as Q1. rewrite <- Vq in Q1. set (q := b2r (fdiv D r)) in *.
    assert (q <= 16000000)%R as Q2 by (unfold unit_ in *; lra).
    assert (Rabs (q * b2r n) <= 16000000000)%R as Q3. { rewrite Rabs_mult, (Rabs_pos_eq q) by exact Q0. assert (Rabs (b2r n) <= 1000)%R by (apply Rabs_le; lra). pose proof (Rabs_pos (b2r n)). nra. }
    destruct (mul_large (fdiv D r) n Fq Fn) as (Fm & Vm); [fold q; lra|]. fold q in Vm. split; [exact Fm|]. rewrite Vm. split; [pose proof (rnd32_size _ _ Q3); lra|].
    assert (q * b2r n <= q * m)%R by nra. assert (0 <= q * m)%R by nra. pose proof (rnd32_up _ _ H H0) as Q4. assert (q * m <= (5 + / 10000) * (m * b2r D) + / 10000000)%R.
    { assert (q <= (5 + / 10000) * b2r D + tiny)%R by (unfold unit_ in *; lra). assert (q * m <= ((5 + / 10000) * b2r D + tiny) * m)%R by nra. nra. }
    assert (0 <= m * b2r D)%R by nra. unfold unit_ in *. lra.
  Qed.

  Lemma count_bound : forall (c c' : brush E) (x y t n : f32) (l : f64), has_states c -> paced c -> fin (base c SET_RADIUS_LOGARITHMIC : f32) ->
    fin x -> fin y -> fin (st c STATE_X : f32) -> fin (st c STATE_Y : f32) ->
    (Rabs (b2r x) <= 500000)%R -> (Rabs (b2r y) <= 500000)%R -> (Rabs (b2r (st c STATE_X : f32)) <= 500000)%R -> (Rabs (b2r (st c STATE_Y : f32)) <= 500000)%R ->
    fin l -> (-20 <= b2r l <= 20)%R -> t = f_of_d l -> count_dabs_to L c x y t = (n, c') ->
    paced c' /\ fin n /\ (b2r n <= 101 / 100 * rest (b2r x - b2r (st c STATE_X : f32)) (b2r y - b2r (st c STATE_Y : f32)) (b2r l) + / 1000)%R.
  Proof.
    intros c c' x y t n l St P Fb Fx Fy FX FY Bx By BX BY Fl Hl -> H. pose proof tiny_small as Ti. assert (large > 1000000000000)%R as La by (unfold large; lra).
    destruct P as [(Fa & Ba) (Fb' & Bb) (Fs & Bs) (Fr & Br) (Fq & Bq)].
    destruct (clamp_num _ (em_exp_num L EM _ Fb)) as (Fc & Hc).
    assert (exists c0 : brush E, (if neqb (wid (st c STATE_ACTUAL_RADIUS)) (nofZ 0) then set_st c STATE_ACTUAL_RADIUS (clamp_radius (M := mix64) (expf_ L (base c SET_RADIUS_LOGARITHMIC))) else c) = c0 /\
      (forall i, i <> STATE_ACTUAL_RADIUS -> st c0 i = st c i) /\ fin (st c0 STATE_ACTUAL_RADIUS : f32) /\ (2 / 10 <= b2r (st c0 STATE_ACTUAL_RADIUS : f32))%R) as (c0 & E0 & K0 & Fr0 & Br0).
    { eexists. split; [reflexivity|]. change (@neqb (dbl mix64)) with deq. change (@wid mix64) with d_of_f. change (@nofZ (dbl mix64) 0) with (d_of_Z 0).
      destruct (d_of_f_exact _ Fr) as (Vr & Gr). destruct (zd_Z 0) as ((G0 & _) & W0); [lia|]. rewrite deq_spec, Vr, W0 by auto.
      destruct (Req_bool_spec (b2r (st c STATE_ACTUAL_RADIUS : f32)) 0) as [Z|Z].
      - split; [intros i Hi; apply st_set_other; auto|]. rewrite st_set_same by (first [exact St|vm_compute; lia]). split; [exact Fc|apply Hc].
      - split; [auto|]. split; [exact Fr|]. destruct Br; [contradiction|assumption]. }
    unfold count_dabs_to in H. cbv zeta in H. rewrite E0 in H. set (br := clamp_radius (M := mix64) _) in *. clearbody br. change (car (sng mix64)) with f32 in br.
    rewrite !(K0 STATE_X), !(K0 STATE_Y), !(K0 STATE_ACTUAL_ELLIPTICAL_DAB_RATIO), !(K0 STATE_DABS_PER_ACTUAL_RADIUS), !(K0 STATE_DABS_PER_BASIC_RADIUS), !(K0 STATE_DABS_PER_SECOND) in H by discriminate.
    change (@nlt (dbl mix64)) with dlt in H. change (@wid mix64) with d_of_f in H. change (@nofZ (dbl mix64)) with d_of_Z in H. change (@nofZ (sng mix64)) with f_of_Z in H.
    change (@nsub (sng mix64)) with fsub in H. change (@nmul (sng mix64)) with fmul in H. change (@ndiv (sng mix64)) with fdiv in H. change (@nadd (sng mix64)) with fadd in H.
    assert (dlt (d_of_Z 1) (d_of_f (st c STATE_ACTUAL_ELLIPTICAL_DAB_RATIO)) = false) as Er.
    { destruct (d_of_f_exact _ Fq) as (Vq & Gq). destruct (zd_Z 1) as ((G1 & _) & W1); [lia|]. rewrite dlt_spec, Vq, W1 by auto. apply Rlt_bool_false. simpl. exact Bq. }
    rewrite Er in H. clear Er.
    assert (c' = c0) as Ec by (apply (f_equal snd) in H; symmetry; exact H). apply (f_equal fst) in H. cbn [fst] in H. subst c'.
    split. { split; rewrite ?K0 by discriminate; auto. }
    revert H. set (X := st c STATE_X : f32) in *. set (Y := st c STATE_Y : f32) in *. set (da := st c STATE_DABS_PER_ACTUAL_RADIUS : f32) in *. set (db := st c STATE_DABS_PER_BASIC_RADIUS : f32) in *. set (ds := st c STATE_DABS_PER_SECOND : f32) in *. set (r := st c0 STATE_ACTUAL_RADIUS : f32) in *.
    intros H. change (st c STATE_X) with X in H. change (st c STATE_Y) with Y in H. change (st c STATE_DABS_PER_ACTUAL_RADIUS) with da in H. change (st c STATE_DABS_PER_BASIC_RADIUS) with db in H. change (st c STATE_DABS_PER_SECOND) with ds in H. change (st c0 STATE_ACTUAL_RADIUS) with r in H.
    clearbody X Y da db ds r. clear E0 K0 Fq Bq Fr Br St. change (car (sng mix64)) with f32 in *.
    (* the distance *)
    assert (forall p q : f32, fin p -> fin q -> (Rabs (b2r p) <= 500000)%R -> (Rabs (b2r q) <= 500000)%R -> fin (fsub p q) /\ (Rabs (b2r (fsub p q)) <= (1 + unit_) * Rabs (b2r p - b2r q) + tiny)%R /\ (Rabs (b2r p - b2r q) <= 1000000)%R) as Sub.
    { intros p q Fp Fq Bp Bq. assert (Rabs (b2r p - b2r q) <= 1000000)%R as B. { pose proof (Rabs_triang (b2r p) (- b2r q)) as K. rewrite Rabs_Ropp in K. unfold Rminus. lra. }
      destruct (sub_large p q Fp Fq) as (F & V); [lra|]. split; [exact F|]. split; [|exact B]. rewrite V. pose proof (near32 (b2r p - b2r q)) as N.
      replace (rnd32 (b2r p - b2r q)) with ((rnd32 (b2r p - b2r q) - (b2r p - b2r q)) + (b2r p - b2r q))%R by ring. eapply Rle_trans; [apply Rabs_triang|]. lra. }
    destruct (Sub x X Fx FX Bx BX) as (Fdx & Bdx & Ldx). destruct (Sub y Y Fy FY By BY) as (Fdy & Bdy & Ldy). clear Sub.
    unfold rest. set (ax := Rabs (b2r x - b2r X)) in *. set (ay := Rabs (b2r y - b2r Y)) in *. assert (0 <= ax)%R by apply Rabs_pos. assert (0 <= ay)%R by apply Rabs_pos.
    destruct (HF (fsub x X) (fsub y Y) Fdx Fdy) as (FD & BD); [unfold unit_ in *; lra|unfold unit_ in *; lra|]. set (D := hypotf_ L (fsub x X) (fsub y Y) : f32) in *. change (hypotf_ L (fsub x X) (fsub y Y)) with D in H. clearbody D.
    assert (b2r D <= 1002 / 1000 * (ax + ay) + / 10000000000)%R as BD' by (unfold unit_ in *; lra).
    destruct (over_radius D r da FD ltac:(unfold unit_ in *; lra) Fr0 Br0 a Ha Fa Ba) as (F1 & S1 & U1). destruct (over_radius D br db FD ltac:(unfold unit_ in *; lra) Fc (proj1 Hc) b Hb Fb' Bb) as (F2 & S2 & U2).
    set (r1 := fmul (fdiv D r) da) in *. set (r2 := fmul (fdiv D br) db) in *. clearbody r1 r2.
    destruct (add_large r1 r2 F1 F2) as (F12 & V12); [eapply Rle_trans; [apply Rabs_triang|lra]|].
    assert (Rabs (b2r (fadd r1 r2)) <= 400000000001)%R as S12. { rewrite V12. eapply Rle_trans; [apply rnd32_size with (B := 200000000000%R); eapply Rle_trans; [apply Rabs_triang|lra]|lra]. }
    assert (0 <= a * b2r D /\ 0 <= b * b2r D)%R as (Pa & Pb) by (split; apply Rmult_le_pos; lra).
    assert (b2r (fadd r1 r2) <= 5002 / 1000 * (a * b2r D + b * b2r D) + / 100000)%R as U12.
    { rewrite V12. eapply Rle_trans; [apply rnd32_up with (U := (5001 / 1000 * (a * b2r D) + / 1000000 + (5001 / 1000 * (b * b2r D) + / 1000000))%R); lra|]. unfold unit_ in *. lra. }
    (* the time *)
    destruct (zf_nar (-20) 20 l) as ((Ft & Bt) & Vt); [split; [exact Fl|exact Hl]|split; lia|]. pose proof (rnd32_up (b2r l) (Rmax 0 (b2r l)) (Rmax_r _ _) (Rmax_l _ _)) as Ut. rewrite <- Vt in Ut. set (t := f_of_d l) in *. clearbody t. simpl in Bt.
    set (m := Rmax 0 (b2r l)) in *. assert (0 <= m)%R by apply Rmax_l.
    assert (Rabs (b2r t * b2r ds) <= 20000)%R as S3'. { rewrite Rabs_mult. assert (Rabs (b2r t) <= 20)%R by (apply Rabs_le; lra). rewrite (Rabs_pos_eq (b2r ds)) by lra. pose proof (Rabs_pos (b2r t)). apply Rle_trans with (20 * 1000)%R; [apply Rmult_le_compat; lra|lra]. }
    destruct (mul_large t ds Ft Fs) as (F3 & V3); [lra|]. assert (b2r (fmul t ds) <= 1001 / 1000 * (s * m) + / 1000000)%R as U3.
    { rewrite V3. assert (b2r t * b2r ds <= ((1 + unit_) * m + tiny) * s)%R. { apply Rle_trans with (((1 + unit_) * m + tiny) * b2r ds)%R; [apply Rmult_le_compat_r; lra|apply Rmult_le_compat_l; [unfold unit_ in *; lra|lra]]. }
      assert (0 <= ((1 + unit_) * m + tiny) * s)%R by (apply Rmult_le_pos; [unfold unit_ in *; lra|lra]). pose proof (rnd32_up _ _ H3 H4). assert (tiny * s <= / 1000000000000000000000000000000 * 1000)%R by (apply Rmult_le_compat; lra). assert (0 <= s * m)%R by (apply Rmult_le_pos; lra). replace (((1 + unit_) * m + tiny) * s)%R with ((1 + unit_) * (s * m) + tiny * s)%R in * by ring. clear - H5 H6 H7 Ti. unfold unit_ in *. lra. }
    assert (Rabs (b2r (fmul t ds)) <= 40001)%R as S3 by (rewrite V3; eapply Rle_trans; [apply rnd32_size; exact S3'|lra]). set (r3 := fmul t ds) in *. clearbody r3.
    destruct (add_large (fadd r1 r2) r3 F12 F3) as (F4 & V4); [eapply Rle_trans; [apply Rabs_triang|lra]|].
    assert (0 <= s * m)%R by (apply Rmult_le_pos; lra).
    assert (b2r (fadd (fadd r1 r2) r3) <= 5003 / 1000 * (a * b2r D + b * b2r D) + 1002 / 1000 * (s * m) + / 10000)%R as U4.
    { rewrite V4. eapply Rle_trans; [apply rnd32_up with (U := (5002 / 1000 * (a * b2r D + b * b2r D) + / 100000 + (1001 / 1000 * (s * m) + / 1000000))%R); lra|]. unfold unit_ in *. lra. }
    assert (0 <= (a + b) * (ax + ay))%R by (apply Rmult_le_pos; lra).
    assert (a * b2r D + b * b2r D <= 1002 / 1000 * ((a + b) * (ax + ay)) + / 1000000)%R.
    { pose proof (Rmult_le_compat_l (a + b) _ _ ltac:(lra) BD') as K. clear - K Ha Hb. lra. }
    assert ((a + b) * (ax + ay) <= (a + b) * k * (ax + ay))%R. { replace ((a + b) * k * (ax + ay))%R with (k * ((a + b) * (ax + ay)))%R by ring. rewrite <- (Rmult_1_l ((a + b) * (ax + ay))) at 1. apply Rmult_le_compat_r; lra. }
    subst n. rewrite (em_nan L EM). destruct (zf_Z 0) as ((F0 & _) & V0); [lia|].
    match goal with |- context [if ?g then _ else _] => destruct g end; [split; [exact F0|rewrite V0; simpl; lra]|]. split; [exact F4|]. lra.
  Qed.

  (** *** A step leaves the paces within bounds *)
  Definition up_to (u : R) (v : f32) : Prop := fin v /\ (b2r v <= u)%R.
  Definition rate (u : R) (v : f32) : Prop := fin v /\ (0 <= b2r v <= u)%R.
  Record measured (ms : list (mapping (sng mix64))) : Prop := {
    me_tuned : tuned ms;
    me_actual : forall m, nth_error ms SET_DABS_PER_ACTUAL_RADIUS = Some m -> yields m (up_to a);
    me_basic : forall m, nth_error ms SET_DABS_PER_BASIC_RADIUS = Some m -> yields m (up_to b);
    me_second : forall m, nth_error ms SET_DABS_PER_SECOND = Some m -> yields m (rate s);
    me_ratio : forall m, nth_error ms SET_ELLIPTICAL_DAB_RATIO = Some m -> yields m (up_to 1) }.

  Lemma update_paced : forall (c c' : brush E) (p : step mix64), ready c -> measured (b_settings c) -> zf (-13) (fadd (st c STATE_PRESSURE) (sp_dpressure p)) 13 -> zf (-100) (sp_viewrotation p) 100 ->
    update_states L c p = Ok c' -> paced c'.
  Proof.
    intros c c' p R M Hp Hv U. destruct (update_ok L EM c p R Hp Hv) as (c2 & U2 & Ft & Es & Er & _ & _ & Epr & _). rewrite U in U2. apply Ok_inj in U2. subst c2.
    pose proof (proj1 R) as Sh. pose proof (proj1 Sh) as St. destruct (update_more L c p c' St U) as (_ & _ & _ & _ & inputs & Ln & Cv & I0 & I1).
    destruct (update_facts L c p c' St U) as (c1 & _ & Fi & _ & _ & _ & Ev). destruct Fi as (_ & _ & (D1 & D2 & D3 & D4) & _).
    assert (forall i, val c1 i = val c' i) as Vv by (intros i; unfold val; rewrite Ev; reflexivity). rewrite Vv in D1, D2, D3, D4.
    assert (forall i (P : f32 -> Prop), (i < SETTINGS_COUNT)%nat -> (forall m, nth_error (b_settings c) i = Some m -> yields m P) -> P (val c' i)) as Value.
    { intros i P Hi Y. destruct (nth_error (b_settings c) i) as [m|] eqn:N; [|apply nth_error_None in N; destruct Sh as (_ & (Ls & _) & _); lia].
      destruct (Y m eq_refl inputs Ln) as (v & Em & Pv).
      - refine (eq_ind_r (fun v : f32 => zf 0 v 117) _ I0). rewrite Epr. pose proof (clamp_pressure 13 _ ltac:(lia) Hp) as (Fa & Ha'). set (pr := if dle _ _ then _ else _) in *. clearbody pr.
        destruct (tuned_base c SET_PRESSURE_GAIN_LOG (in_range (-100) 2) Sh (proj1 (proj2 R)) ltac:(cbn; auto 9)) as (Fg & Hg). simpl in Hg, Ha'.
        destruct (em_exp L EM _ 2 Fg) as (Fe & He); [simpl; lra|lia|]. simpl in He. set (e := expf_ L _) in *. clearbody e. change (car (sng mix64)) with f32 in *. change (@nmul (sng mix64)) with fmul.
        apply zf_mul; auto; [split; lia|simpl; nra].
      - refine (eq_ind_r (fun v : f32 => zf 0 v 1) _ I1). change (@nar mix64) with f_of_d. apply zf_nar; [apply R|split; lia].
      - pose proof (calc_nth (M := mix64) _ _ _ _ _ Cv N) as C. rewrite Em in C. apply Ok_inj in C. unfold val. rewrite <- C. exact Pv. }
    destruct Ft as [_ _ _ (Fr & Hr) (F1 & B1) (F2 & B2) (F3 & _)]. simpl in B1, B2.
    pose proof (Value SET_DABS_PER_ACTUAL_RADIUS _ ltac:(vm_compute; lia) (me_actual _ M)) as (_ & Q1). rewrite <- D2 in Q1.
    pose proof (Value SET_DABS_PER_BASIC_RADIUS _ ltac:(vm_compute; lia) (me_basic _ M)) as (_ & Q2). rewrite <- D1 in Q2.
    pose proof (Value SET_DABS_PER_SECOND _ ltac:(vm_compute; lia) (me_second _ M)) as (F4 & Q4). rewrite <- D3 in Q4, F4.
    pose proof (Value SET_ELLIPTICAL_DAB_RATIO _ ltac:(vm_compute; lia) (me_ratio _ M)) as (F5 & Q5). rewrite <- D4 in Q5, F5.
    split; [split; [exact F1|lra]|split; [exact F2|lra]|split; [exact F4|exact Q4]|split; [exact Fr|right; apply Hr]|split; [exact F5|exact Q5]].
  Qed.

  (** *** One dab *)
  Context (FR : fair E) (Inv : e_surf E -> Prop).
  Context (HD : forall sf d, Inv sf -> drawable d -> exists p sf', e_draw E sf d = Ok (p, sf') /\ Inv sf').
  Notation under := (under Inv).

  Lemma one_dab_way : forall g p p', aim g -> under p -> measured (b_settings (p_brush p)) -> pending p = true -> one_dab L g p = Ok p' ->
    exists (fr : f32) (c : brush E),
      fin fr /\ (0 <= b2r fr <= 1025 / 512)%R /\ (b2r (p_moved p : f32) = 0%R -> (b2r fr <= 1)%R /\ fr = fdiv (f_of_Z 1) (p_todo p)) /\
      st c STATE_X = fadd (st (p_brush p) STATE_X) (fmul fr (fsub (g_x g) (st (p_brush p) STATE_X))) /\
      st c STATE_Y = fadd (st (p_brush p) STATE_Y) (fmul fr (fsub (g_y g) (st (p_brush p) STATE_Y))) /\
      p_left p' = dsub (p_left p) (d_of_f (f_of_d (dmul (d_of_f fr) (dsub (p_left p) (d_of_Z 0))))) /\
      has_states c /\ paced c /\ b_settings c = b_settings (p_brush p) /\
      count_dabs_to L c (g_x g) (g_y g) (f_of_d (p_left p')) = (p_todo p', p_brush p') /\ b2r (p_moved p' : f32) = 0%R.
  Proof.
    intros g p p' (Ax & Ay & Ap & Av) [Rd Pn HI (Fm & Hm) Ut Wh] Me Pe O. unfold pending in Pe. change (@nle (dbl mix64)) with dle in Pe. change (@nofZ (dbl mix64) 1) with (d_of_Z 1) in Pe. change (@wid mix64) with d_of_f in Pe. change (@nadd (sng mix64)) with fadd in Pe.
    destruct (frac_two _ _ Fm Hm Ut Pe) as (dd & m' & Ed & Zd & Fm' & Hm0 & Ff & Hf & Hf1).
    unfold one_dab in O. cbv zeta in O. change (@nlt (sng mix64)) with flt in O. change (@nar mix64) with f_of_d in O. change (@wid mix64) with d_of_f in O. change (@nsub (dbl mix64)) with dsub in O. change (@nofZ (dbl mix64)) with d_of_Z in O.
    change (@nofZ (sng mix64)) with f_of_Z in O. change (car (sng mix64)) with f32 in *.
    assert (b2r (p_moved p : f32) = 0%R -> dd = f_of_Z 1) as Dd.
    { intros Z0. destruct (zf_Z 0) as ((F0 & _) & V0); [lia|]. rewrite flt_spec, V0, Z0 in Ed by auto. rewrite Rlt_bool_false in Ed by (simpl; lra). injection Ed as <- _. reflexivity. }
    rewrite Ed in O. clear Ed Pe. change (@ndiv (sng mix64)) with fdiv in O. change (@nmul (sng mix64)) with fmul in O. change (@nmul (dbl mix64)) with dmul in O.
    set (fr := fdiv dd (p_todo p)) in *. assert (b2r (p_moved p : f32) = 0%R -> fr = fdiv (f_of_Z 1) (p_todo p)) as Fr1 by (intros Z0; unfold fr; rewrite (Dd Z0); reflexivity). clearbody fr. set (b0 := p_brush p) in *.
    match type of O with context [update_states L _ ?q] => set (sp := q) in O end.
    assert (sp_dx sp = fmul fr (fsub (g_x g) (st b0 STATE_X)) /\ sp_dy sp = fmul fr (fsub (g_y g) (st b0 STATE_Y)) /\ sp_dpressure sp = fmul fr (fsub (g_pressure g) (st b0 STATE_PRESSURE)) /\ sp_viewrotation sp = g_viewrotation g) as (S1 & S2 & S3 & S4) by (repeat split; reflexivity).
    clearbody sp.
    assert (zf (-13) (fadd (st b0 STATE_PRESSURE) (sp_dpressure sp)) 13) as Zp.
    { rewrite S3. destruct Wh as [(_ & _ & Zp)|(H0 & _ & _ & Zp)].
      - apply (toward_out 2 1 13); auto; try lia; try lra; eapply zf_weak; try eassumption; lia.
      - apply (toward_in 13 1); auto; try lia; try (split; [apply Hf|apply Hf1; exact H0]); eapply zf_weak; try eassumption; lia. }
    assert (zf (-100) (sp_viewrotation sp) 100) as Zv by (rewrite S4; exact Av).
    apply obind_ok in O. destruct O as (b1 & U & O). destruct (update_ok L EM b0 sp Rd Zp Zv) as (b1' & U' & Ft & Es & _ & Ex & Ey & _). rewrite U in U'. apply Ok_inj in U'. subst b1'.
    pose proof (update_paced b0 b1 sp Rd Me Zp Zv U) as Pc.
    apply obind_ok in O. destruct O as (((pn, b3), w3) & Ep & O). apply obind_ok in O. destruct O as ((r, rg) & _ & O). destruct (count_dabs_to L _ _ _ _) as [todo b4] eqn:Ec. apply Ok_inj in O. subst p'.
    pose proof (prepare_frame L _ _ _ _ _ _ Ep) as (Fe & Sm & _). assert (has_states (set_st b1 STATE_FLIP (fmul (st b1 STATE_FLIP) (f_of_Z (-1))))) as Hs1 by (apply has_set; apply (ft_ready _ Ft)).
    destruct (Sm Hs1) as (Hs3 & Sm').
    exists fr, (with_random (with_rng b3 rg) r). cbn [p_left p_todo p_brush p_moved].
    assert (forall i, (i < 5 \/ 13 < i)%nat -> i <> STATE_FLIP -> st (with_random (with_rng b3 rg) r) i = st b1 i) as K.
    { intros i Hi Hf'. transitivity (st (set_st b1 STATE_FLIP (fmul (st b1 STATE_FLIP) (f_of_Z (-1)))) i); [apply Sm'; exact Hi|]. apply st_set_other. auto. }
    split; [exact Ff|]. split; [exact Hf|]. split; [intros Z0; split; [apply Hf1; exact Z0|apply Fr1; exact Z0]|].
    split; [rewrite K by (first [discriminate|vm_compute; lia]); rewrite Ex, S1; reflexivity|]. split; [rewrite K by (first [discriminate|vm_compute; lia]); rewrite Ey, S2; reflexivity|]. split; [reflexivity|].
    split; [exact Hs3|]. split; [destruct Pc as [P1 P2 P3 P4 P5]; split; rewrite K by (first [discriminate|vm_compute; lia]); assumption|].
    split; [transitivity (b_settings b1); [cbn; rewrite Fe; reflexivity|exact Es]|]. split; [exact Ec|exact Hm0].
  Qed.

  (** *** Counting the dabs, for any time *)
  Lemma count_paced : forall (c c' : brush E) (x y t n : f32), has_states c -> paced c -> fin (base c SET_RADIUS_LOGARITHMIC : f32) -> count_dabs_to L c x y t = (n, c') -> paced c'.
  Proof.
    intros c c' x y t n St [P1 P2 P3 (Fr & Br) P5] Fb H. destruct (clamp_num _ (em_exp_num L EM _ Fb)) as (Fc & Hc). unfold count_dabs_to in H. cbv zeta in H. apply (f_equal snd) in H. cbn [snd] in H. subst c'.
    change (@neqb (dbl mix64)) with deq. change (@wid mix64) with d_of_f. change (@nofZ (dbl mix64) 0) with (d_of_Z 0). destruct (deq _ _); [|split; auto].
    split; rewrite ?st_set_other by discriminate; auto. rewrite st_set_same by (first [exact St|vm_compute; lia]). split; [exact Fc|right; apply Hc].
  Qed.
  Lemma nan_mul : forall t v : f32, is_nan t = true -> is_nan (fmul t v) = true.
  Proof. intros t v H. destruct t; try discriminate H. destruct v; reflexivity. Qed.
  Lemma nan_add : forall v t : f32, is_nan t = true -> is_nan (fadd v t) = true.
  Proof. intros v t H. destruct t; try discriminate H. destruct v; reflexivity. Qed.
  Lemma count_nan : forall (c c' : brush E) (x y t n : f32), is_nan t = true -> count_dabs_to L c x y t = (n, c') -> n = f_of_Z 0.
  Proof.
    intros c c' x y t n T H. unfold count_dabs_to in H. cbv zeta in H. apply (f_equal fst) in H. cbn [fst] in H. subst n. rewrite (em_nan L EM). change (@nadd (sng mix64)) with fadd. change (@nmul (sng mix64)) with fmul.
    rewrite nan_add by (apply nan_mul; exact T). reflexivity.
  Qed.

  (** *** The dabs of one event *)
  Variable q : Z.
  Hypotheses (Hq : (1 <= q <= 110001)%Z) (Hd : ((a + b) * k * (IZR q + 3) <= 300000)%R).
  Definition reach : Z := 4 * q + 8.
  Definition goal_near (g : target mix64) : Prop := zf (- q) (g_x g) q /\ zf (- q) (g_y g) q.
  Definition todo_left (g : target mix64) (p : progress E) : R :=
    rest (b2r (g_x g : f32) - b2r (st (p_brush p) STATE_X : f32)) (b2r (g_y g : f32) - b2r (st (p_brush p) STATE_Y : f32)) (b2r (p_left p : f64)).
  Record inner (g : target mix64) (p : progress E) : Prop := {
    in_under : under p; in_measured : measured (b_settings (p_brush p)); in_moved : b2r (p_moved p : f32) = 0%R;
    in_x : zf (- reach) (st (p_brush p) STATE_X) reach; in_y : zf (- reach) (st (p_brush p) STATE_Y) reach;
    in_left : fin (p_left p : f64) /\ (-20 <= b2r (p_left p : f64) <= 20)%R;
    in_todo : fin (p_todo p : f32) /\ (b2r (p_todo p : f32) <= 101 / 100 * todo_left g p + / 1000)%R }.

  Lemma rest_pos : forall dx dy l, (0 <= rest dx dy l)%R.
  Proof.
    intros dx dy l. unfold rest. pose proof (Rabs_pos dx). pose proof (Rabs_pos dy). pose proof (Rmax_l 0 l).
    assert (0 <= 5 * (a + b) * k)%R by (apply Rmult_le_pos; lra). assert (0 <= 5 * (a + b) * k * (Rabs dx + Rabs dy))%R by (apply Rmult_le_pos; lra). assert (0 <= s * Rmax 0 l)%R by (apply Rmult_le_pos; lra). lra.
  Qed.
  (** a step by the fraction 1/n of at most n dabs: a fifth of a dab less *)
  Lemma less : forall (f todo ax ay m ax' ay' m' : R), (0 <= ax)%R -> (0 <= ay)%R -> (0 <= m)%R -> (0 <= f <= 1)%R -> (1 <= todo)%R ->
    let W := (5 * (a + b) * k)%R in let P := (W * (ax + ay) + s * m)%R in let r := (IZR reach + 2)%R in
    (todo <= 101 / 100 * P + / 1000)%R -> (P <= 1000000000000000000)%R -> ((1 - unit_) * / todo - tiny <= f)%R ->
    (ax' <= (1 - f * (1 - 4 * unit_)) * ax + unit_ * r)%R -> (ay' <= (1 - f * (1 - 4 * unit_)) * ay + unit_ * r)%R -> (m' <= (1 - f * (1 - 4 * unit_)) * m + / 100000)%R ->
    (W * (ax' + ay') + s * m' <= P - / 5)%R.
  Proof.
    intros f todo ax ay m ax' ay' m' H1 H2 H3 Hf Ht W P r T B Lf Hx Hy Hm. pose proof tiny_small as Ti.
    assert (0 <= W)%R as W0 by (unfold W; apply Rmult_le_pos; lra).
    assert (W * r <= 6000000)%R as Wr.
    { unfold W, r, reach. rewrite plus_IZR, mult_IZR. replace (5 * (a + b) * k * (4 * IZR q + 8 + 2))%R with (20 * ((a + b) * k * (IZR q + 10 / 4)))%R by field.
      assert ((a + b) * k * (IZR q + 10 / 4) <= (a + b) * k * (IZR q + 3))%R by (apply Rmult_le_compat_l; [apply Rmult_le_pos; lra|lra]). lra. }
    set (g := (1 - f * (1 - 4 * unit_))%R) in *.
    assert (W * (ax' + ay') + s * m' <= g * P + 2 * unit_ * (W * r) + s * / 100000)%R as S.
    { assert (W * (ax' + ay') <= W * (g * (ax + ay) + 2 * (unit_ * r)))%R by (apply Rmult_le_compat_l; lra). assert (s * m' <= s * (g * m + / 100000))%R by (apply Rmult_le_compat_l; lra).
      unfold P. lra. }
    assert (s * / 100000 <= 1 / 100)%R by lra. assert (2 * unit_ * (W * r) <= 72 / 100)%R by (unfold unit_; lra).
    assert (98 / 100 <= P)%R as PL by lra.
    assert (97 / 100 <= f * P)%R as FP.
    { assert (96 / 98 * todo <= P)%R as Q1 by lra. assert (96 / 98 <= / todo * P)%R as Q2. { apply Rmult_le_reg_l with todo; [lra|]. rewrite <- Rmult_assoc, Rinv_r by lra. lra. }
      assert (((1 - unit_) * / todo - tiny) * P <= f * P)%R as Q3 by (apply Rmult_le_compat_r; lra).
      replace (((1 - unit_) * / todo - tiny) * P)%R with ((1 - unit_) * (/ todo * P) - tiny * P)%R in Q3 by ring.
      assert (tiny * P <= / 1000000)%R as Q4. { apply Rle_trans with (/ 1000000000000000000000000000000 * 1000000000000000000)%R; [|lra]. apply Rmult_le_compat; lra. }
      assert ((1 - unit_) * (96 / 98) <= (1 - unit_) * (/ todo * P))%R as Q5 by (apply Rmult_le_compat_l; [unfold unit_; lra|exact Q2]). clear - Q3 Q4 Q5. unfold unit_ in *. lra. }
    assert (g * P <= P - 96 / 100)%R. { unfold g. replace ((1 - f * (1 - 4 * unit_)) * P)%R with (P - (1 - 4 * unit_) * (f * P))%R by ring. assert ((1 - 4 * unit_) * (97 / 100) <= (1 - 4 * unit_) * (f * P))%R by (apply Rmult_le_compat_l; [unfold unit_; lra|exact FP]). unfold unit_ in *. lra. }
    lra.
  Qed.

  Lemma small_rest : forall (X Y gx gy l : R), (Rabs X <= 500000)%R -> (Rabs Y <= 500000)%R -> (Rabs gx <= 500000)%R -> (Rabs gy <= 500000)%R -> (-20 <= l <= 20)%R -> (rest (gx - X) (gy - Y) l <= 1000000000000000000)%R.
  Proof.
    intros X Y gx gy l H1 H2 H3 H4 H5. unfold rest. assert (Rmax 0 l <= 20)%R by (apply Rmax_lub; lra). pose proof (Rmax_l 0 l).
    assert (forall u v, Rabs u <= 500000 -> Rabs v <= 500000 -> Rabs (u - v) <= 1000000)%R as D by (intros u v Hu Hv; pose proof (Rabs_triang u (- v)) as T; rewrite Rabs_Ropp in T; unfold Rminus; lra).
    pose proof (D _ _ H3 H1). pose proof (D _ _ H4 H2). pose proof (Rabs_pos (gx - X)). pose proof (Rabs_pos (gy - Y)).
    assert (s * Rmax 0 l <= 1000 * 20)%R by (apply Rmult_le_compat; lra). assert ((a + b) * k <= 2000 * 10000)%R by (apply Rmult_le_compat; lra). assert (0 <= (a + b) * k)%R by (apply Rmult_le_pos; lra).
    assert ((a + b) * k * (Rabs (gx - X) + Rabs (gy - Y)) <= 20000000 * 2000000)%R by (apply Rmult_le_compat; lra). lra.
  Qed.

  Lemma zf_abs : forall n (x : f32), zf (- n) x n -> fin x /\ (Rabs (b2r x) <= IZR n)%R.
  Proof. intros n x (F & H). split; [exact F|]. rewrite opp_IZR in H. apply Rabs_le. exact H. Qed.
  Lemma abs_zf : forall n (x : f32), fin x -> (Rabs (b2r x) <= IZR n)%R -> zf (- n) x n.
  Proof. intros n x F H. split; [exact F|]. rewrite opp_IZR. apply Rabs_le_inv. exact H. Qed.

  Lemma inner_step : forall g p p', aim g -> goal_near g -> inner g p -> pending p = true -> one_dab L g p = Ok p' -> inner g p' /\ (todo_left g p' <= todo_left g p - / 5)%R.
  Proof.
    intros g p p' A (Gx & Gy) [Un Me Mo Zx Zy (Fl & Hl) (Ft & Ht)] Pe O. destruct (one_dab_ok L EM FR Inv HD g p A Un Pe) as (p1 & O1 & U'). rewrite O in O1. apply Ok_inj in O1. subst p1.
    destruct (one_dab_way g p p' A Un Me Pe O) as (fr & c & Ff & Hf & Hf1 & Ex & Ey & El & Hs' & Pc & Es & Ec & Mo'). destruct (Hf1 Mo) as (Hf2 & Ef). clear Hf1.
    assert (IZR reach = 4 * IZR q + 8)%R as Vr by (unfold reach; rewrite plus_IZR, mult_IZR; reflexivity). assert (1 <= IZR q <= 110001)%R as Hq' by (split; apply IZR_le; lia).
    destruct (zf_abs _ _ Gx) as (Fgx & Bgx). destruct (zf_abs _ _ Gy) as (Fgy & Bgy). destruct (zf_abs _ _ Zx) as (FX & BX). destruct (zf_abs _ _ Zy) as (FY & BY).
    destruct (step_rest _ _ fr (IZR reach) FX Fgx Ff BX ltac:(lra) ltac:(lra) ltac:(lra)) as (FX' & DX). destruct (step_rest _ _ fr (IZR reach) FY Fgy Ff BY ltac:(lra) ltac:(lra) ltac:(lra)) as (FY' & DY).
    destruct (time_rest _ fr Fl Ff Hl ltac:(lra)) as (Fl' & Dl & Hl').
    assert (zf (- reach) (st c STATE_X) reach) as ZX' by (rewrite Ex; apply (toward_in reach q); auto; unfold reach; try lia; lra).
    assert (zf (- reach) (st c STATE_Y) reach) as ZY' by (rewrite Ey; apply (toward_in reach q); auto; unfold reach; try lia; lra).
    destruct (zf_abs _ _ ZX') as (_ & BX'). destruct (zf_abs _ _ ZY') as (_ & BY').
    rewrite <- Ex in FX', DX. rewrite <- Ey in FY', DY. rewrite <- El in Fl', Dl, Hl'.
    (* counting again *)
    assert (fin (base c SET_RADIUS_LOGARITHMIC : f32)) as Fb.
    { assert (base c SET_RADIUS_LOGARITHMIC = base (p_brush p) SET_RADIUS_LOGARITHMIC) as -> by (unfold base; rewrite Es; reflexivity). pose proof (un_ready _ _ Un) as (Sh & Tn & _).
      apply (tuned_base (p_brush p) SET_RADIUS_LOGARITHMIC (in_range (-6) 6) Sh Tn). cbn; auto 50. }
    destruct (count_bound c (p_brush p') (g_x g) (g_y g) (f_of_d (p_left p')) (p_todo p') (p_left p') Hs' Pc Fb Fgx Fgy FX' FY') as (Pc' & Ft' & Ht'); auto; try lra.
    destruct (count_states L _ _ _ _ _ _ Ec) as (Os & K).
    assert (st (p_brush p') STATE_X = st c STATE_X) as KX by (apply K; discriminate). assert (st (p_brush p') STATE_Y = st c STATE_Y) as KY by (apply K; discriminate).
    assert (todo_left g p' <= todo_left g p - / 5)%R as Less.
    { unfold todo_left. rewrite KX, KY. unfold rest.
      (* the number of dabs is at least one *)
      assert (1 <= b2r (p_todo p : f32))%R as T1.
      { unfold pending in Pe. change (@nle (dbl mix64)) with dle in Pe. change (@nofZ (dbl mix64) 1) with (d_of_Z 1) in Pe. change (@wid mix64) with d_of_f in Pe. change (@nadd (sng mix64)) with fadd in Pe.
        destruct (un_moved _ _ Un) as (Fm & _). pose proof (small_rest _ _ _ _ _ ltac:(eapply Rle_trans; [exact BX|lra]) ltac:(eapply Rle_trans; [exact BY|lra]) ltac:(eapply Rle_trans; [exact Bgx|lra]) ltac:(eapply Rle_trans; [exact Bgy|lra]) Hl) as Sm. fold (todo_left g p) in Sm.
        assert (0 <= b2r (p_todo p : f32))%R as T0. { destruct (un_todo _ _ Un) as [I|(_ & T0)]; [rewrite I in Ft; discriminate Ft|exact T0]. }
        destruct (add_large (p_moved p) (p_todo p) Fm Ft) as (Fs & Vs); [rewrite Mo, Rplus_0_l, Rabs_pos_eq by exact T0; unfold large; lra|].
        rewrite Mo, Rplus_0_l, rnd32_id in Vs by apply rep32_b2r. destruct (d_of_f_exact _ Fs) as (Vd & Gd). destruct (zd_Z 1) as ((G1 & _) & W1); [lia|]. rewrite dle_spec, Vd, Vs, W1 in Pe by auto.
        destruct (Rle_bool_spec (IZR 1) (b2r (p_todo p : f32))) as [D|D]; [exact D|discriminate Pe]. }
      apply (less (b2r fr) (b2r (p_todo p : f32))); auto; try apply Rabs_pos; try apply Rmax_l; try lra.
      - apply small_rest; lra.
      - rewrite Ef. destruct (zf_Z 1) as ((F1 & _) & V1); [lia|]. assert (0 < / b2r (p_todo p : f32) <= 1)%R as Iv. { split; [apply Rinv_0_lt_compat; lra|]. rewrite <- Rinv_1. apply Rinv_le; lra. }
        destruct (div_large (f_of_Z 1) (p_todo p) F1) as (_ & Vf); [lra|rewrite V1; unfold Rdiv; simpl; rewrite Rmult_1_l, Rabs_pos_eq by lra; unfold large; lra|].
        change (car (sng mix64)) with f32 in *. rewrite Vf, V1. unfold Rdiv. simpl. rewrite Rmult_1_l. pose proof (near32 (/ b2r (p_todo p : f32))) as N. rewrite (Rabs_pos_eq (/ _)) in N by lra. apply Rabs_le_inv in N. lra. }
    split; [|exact Less]. split.
    - exact U'.
    - destruct Os as (-> & _). cbn. rewrite Es. exact Me.
    - exact Mo'.
    - rewrite KX. exact ZX'.
    - rewrite KY. exact ZY'.
    - split; [exact Fl'|exact Hl'].
    - split; [exact Ft'|]. unfold todo_left. rewrite KX, KY. exact Ht'.
  Qed.

  (** the loop ends *)
  Lemma inner_end : forall n g p, aim g -> goal_near g -> inner g p -> (5 * todo_left g p < INR n)%R -> dabs L n g p <> Ok None.
  Proof.
    induction n as [|n IH]; intros g p A G I H.
    - exfalso. pose proof (rest_pos (b2r (g_x g : f32) - b2r (st (p_brush p) STATE_X : f32)) (b2r (g_y g : f32) - b2r (st (p_brush p) STATE_Y : f32)) (b2r (p_left p : f64))) as P. fold (todo_left g p) in P. cbn [INR] in H. lra.
    - cbn [dabs]. destruct (pending p) eqn:Pe; [|discriminate]. destruct (one_dab_ok L EM FR Inv HD g p A (in_under _ _ I) Pe) as (p' & O & _). rewrite O. cbn [obind].
      destruct (inner_step g p p' A G I Pe O) as (I' & Le). apply IH; auto. rewrite S_INR in H. lra.
  Qed.
End End.
